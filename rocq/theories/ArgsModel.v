(** Settings of attach and launch requests (_debug_adapter.py:70-195) and the process
    discovery file (_debuggee.py:70-104, 417-440, 488).
    JSON numbers are integers here (JsonModel). *)
From Verif Require Import PyBase PyDict Digits JsonModel MsgBase.
Set Implicit Arguments.
Local Open Scope N_scope.

(** Truth value of a JSON value in Python. *)
Definition truthy (j : json) : bool :=
  match j with
  | JNull => false | JBool b => b | JInt z => negb (Z.eqb z 0)
  | JStr t => match t with [] => false | _ => true end
  | JArr l => match l with [] => false | _ => true end
  | JObj d => match d with [] => false | _ => true end
  end.
(** data.get(key, default) *)
Definition get_or (d : dict pystr json) (k : pystr) (v : json) : json := match dget d k with Some x => x | None => v end.
(** mapping["localRoot"] *)
Definition subscript (j : json) (k : pystr) : res json :=
  match j with
  | JObj d => match dget d k with Some v => Ok v | None => Err KeyError end
  | _ => Err TypeError
  end.
Definition read_mapping (m : json) : res (json * json) :=
  bind (subscript m (s "localRoot")) (fun l => bind (subscript m (s "remoteRoot")) (fun r => Ok (l, r))).
Fixpoint read_mappings (l : list json) : res (list (json * json)) :=
  match l with [] => Ok [] | m :: l => bind (read_mapping m) (fun p => bind (read_mappings l) (fun ps => Ok (p :: ps))) end.
(** for mapping in data.get("pathMappings", []): 104-110, 167-173.  Iterating over a string
    or an object gives strings, whose subscription fails. *)
Definition path_mappings (j : json) : res (list (json * json)) :=
  match j with
  | JArr l => read_mappings l
  | JStr t => read_mappings (map (fun c => JStr [c]) t)
  | JObj d => read_mappings (map (fun p => JStr (fst p)) d)
  | _ => Err TypeError
  end.

Section Args.
(** float(): of the default 5.0 ([None]) and of a JSON value. *)
Variable Fl : Type.
Variable py_float : option json -> res Fl.

Record AttachArgs := mkAttach {
  at_pid : json; at_addr : json; at_timeout : Fl; at_tls : bool; at_verify : json; at_cert : json; at_key : json; at_pass : json;
  at_maps : list (json * json) }.
(** _debug_adapter.py:99-123 AttachArguments.from_json *)
Definition attach_from_json (d : dict pystr json) : res AttachArgs :=
  bind (path_mappings (get_or d (s "pathMappings") (JArr []))) (fun maps =>
  bind (py_float (dget d (s "connectTimeout"))) (fun t =>
  Ok (mkAttach (get_or d (s "processId") JNull) (get_or d (s "address") (JStr [])) t (truthy (get_or d (s "useTls") (JBool false)))
       (get_or d (s "tlsVerification") (JStr (s "verify"))) (get_or d (s "tlsCertificate") JNull) (get_or d (s "tlsKey") JNull)
       (get_or d (s "tlsKeyPassword") JNull) maps))).

Record LaunchArgs := mkLaunch {
  la_playbook : json; la_args : json; la_cwd : json; la_env : json; la_external : bool; la_timeout : Fl; la_maps : list (json * json); la_logfile : json; la_loglevel : json }.
(** _debug_adapter.py:158-194 LaunchArguments.from_json *)
Definition launch_from_json (d : dict pystr json) : res LaunchArgs :=
  let playbook := get_or d (s "playbook") JNull in
  if negb (truthy playbook) then Err ValueError
  else
    bind (match get_or d (s "console") (JStr (s "integratedTerminal")) with
          | JStr c => if eqb c (s "integratedTerminal") then Ok false else if eqb c (s "externalTerminal") then Ok true else Err ValueError
          | _ => Err ValueError
          end) (fun ext =>
    bind (path_mappings (get_or d (s "pathMappings") (JArr []))) (fun maps =>
    bind (py_float (dget d (s "connectTimeout"))) (fun t =>
    Ok (mkLaunch playbook (get_or d (s "args") (JArr [])) (get_or d (s "cwd") (JStr [])) (get_or d (s "env") (JObj [])) ext t maps
         (get_or d (s "logFile") JNull) (get_or d (s "logLevel") (JStr (s "info"))))))).

(** * The discovery file *)
Record ProcInfo := mkInfo { pi_pid : json; pi_addr : json; pi_tls : json; pi_file : json }.
(** _debuggee.py:77-87 PlaybookProcessInfo.from_json *)
Definition info_from_json (j : json) : res ProcInfo :=
  bind (subscript j (s "pid")) (fun p => bind (subscript j (s "address")) (fun a => bind (subscript j (s "use_tls")) (fun t =>
  bind (subscript j (s "playbook_file")) (fun f => Ok (mkInfo p a t f))))).
(** _debuggee.py:89-95 to_json *)
Definition info_to_json (i : ProcInfo) : json :=
  JObj [(s "pid", pi_pid i); (s "address", pi_addr i); (s "use_tls", pi_tls i); (s "playbook_file", pi_file i)].
(** f"{pid}" for the values a client sends; other values give a name that is not modelled. *)
Definition fmt_pid (j : json) : res pystr := match j with JInt z => Ok (zdigits z) | JStr t => Ok t | _ => Err EUnmodelled end.
(** _debuggee.py:98-104 get_pid_info_path; [tmp]: TMPDIR or /tmp.  The path is not normalised. *)
Definition pid_path (tmp : pystr) (name : pystr) : pystr := tmp ++ s "/ansibug-pid-" ++ name.
(** Files: path to text. *)
Definition files := dict pystr (list N).
(** _debug_adapter.py:81-97 get_connection_tuple *)
Definition connection_tuple (tmp : pystr) (fs : files) (a : AttachArgs) : res (json * json) :=
  match at_pid a with
  | JNull => if truthy (at_addr a) then Ok (at_addr a, JBool (at_tls a)) else Err ValueError
  | pid =>
    bind (fmt_pid pid) (fun name =>
    match dget fs (pid_path tmp name) with
    | None => Err ValueError
    | Some text => bind (loads text) (fun j => bind (info_from_json j) (fun i => Ok (pi_addr i, pi_tls i)))
    end)
  end.

(** The debuggee's side, what happens to the file.  [DStart]: start() (_debuggee.py:377-440);
    [bound]: the address the listening socket reports, [None]: the constructor of the
    queue raises.  [DShutdown]: shutdown() (442-490) up to its end, from either thread.
    Everything else the process does leaves the file alone. *)
Inductive mode := Connect | Listen.
Inductive dop := DStart (m : mode) (bound : option pystr) (tls : bool) (playbook : option pystr) | DShutdown (from_send_thread : bool) | DOther.
Definition dop_step (tmp : pystr) (pid : Z) (fs : files) (o : dop) : files :=
  match o with
  | DStart Listen (Some addr) tls pb =>
    dset fs (pid_path tmp (zdigits pid)) (dumps (info_to_json (mkInfo (JInt pid) (JStr addr) (JBool tls) (match pb with Some t => JStr t | None => JNull end))))
  | DStart _ _ _ _ => fs
  | DShutdown _ => ddel fs (pid_path tmp (zdigits pid))
  | DOther => fs
  end.
Definition dops (tmp : pystr) (pid : Z) (l : list dop) (fs : files) : files := fold_left (dop_step tmp pid) l fs.
End Args.
