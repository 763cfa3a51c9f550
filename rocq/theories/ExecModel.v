(** Starting ansible-playbook: _exec_playbook.py, the options of the callback plugin
    (plugins/callback/debug.py) and the TLS settings (_tls.py). *)
From Verif Require Import PyBase PyDict JsonModel MsgBase ArgsModel.
Set Implicit Arguments.
Local Open Scope N_scope.

(** c.join(l) and text.split(c) for a one-character separator *)
Fixpoint join_on (c : N) (l : list pystr) : pystr := match l with [] => [] | [x] => x | x :: l => x ++ c :: join_on c l end.
Fixpoint split_on (c : N) (l : pystr) : list pystr :=
  match l with
  | [] => [[]]
  | x :: r => if x =? c then [] :: split_on c r else match split_on c r with a :: t => (x :: a) :: t | [] => [[x]] end
  end.
Notation env := (dict pystr pystr).

(** list.extend of a JSON value *)
Definition iter_json (j : json) : res (list json) :=
  match j with
  | JArr l => Ok l | JStr t => Ok (map (fun c => JStr [c]) t) | JObj d => Ok (map (fun p => JStr (fst p)) d) | _ => Err TypeError
  end.
(** str.join needs strings *)
Definition as_str (j : json) : res pystr := match j with JStr t => Ok t | _ => Err TypeError end.
Definition n_cb : pystr := s "CALLBACKS_ENABLED".
Definition n_coll : pystr := s "COLLECTIONS_PATHS".
(** _exec_playbook.py:199-218, the loop over the configuration; [c1], [c2]: the names
    still in to_check. *)
Fixpoint scan (dump : list json) (c1 c2 : bool) (cbs paths : list json) : res (list json * list json) :=
  match dump with
  | [] => Ok (cbs, paths)
  | JObj d :: rest =>
    let name := get_or d (s "name") JNull in
    if negb (truthy name) then scan rest c1 c2 cbs paths
    else
      match name with
      | JStr n =>
        if eqb n n_cb then
          if c1 then bind (subscript (JObj d) (s "value")) (fun v => bind (iter_json v) (fun l => if c2 then scan rest false c2 (cbs ++ l) paths else Ok (cbs ++ l, paths)))
          else Err KeyError
        else if eqb n n_coll then
          if c2 then bind (subscript (JObj d) (s "value")) (fun v => bind (iter_json v) (fun l => if c1 then scan rest c1 false cbs (paths ++ l) else Ok (cbs, paths ++ l)))
          else Err KeyError
        else scan rest c1 c2 cbs paths
      | _ => scan rest c1 c2 cbs paths
      end
  | _ :: _ => Err AttributeError
  end.
(** 168-229 _configure_ansible_env; [environ]: os.environ, [dump]: what
    "ansible config dump" prints, [path]: the directory of the ansibug package, [parent]:
    its parent. *)
Definition configure_env (environ : env) (dump : list json) (path parent : pystr) : res env :=
  bind (scan dump true true [JStr (s "ansibug.dap.debug")] [JStr path]) (fun p =>
  bind (mapM as_str (fst p)) (fun cbs => bind (mapM as_str (snd p)) (fun paths =>
  let pp := parent :: filter (fun e => negb (eqb e [])) (split_on 58 (match dget environ (s "PYTHONPATH") with Some v => v | None => [] end)) in
  Ok [(s "ANSIBLE_CALLBACKS_ENABLED", join_on 44 cbs); (s "ANSIBLE_COLLECTIONS_PATH", join_on 58 paths); (s "ANSIBLE_STRATEGY", s "ansibug.dap.debug"); (s "PYTHONPATH", join_on 58 pp)]))).

Inductive pmode := MConnect | MListen.
Definition mode_text (m : pmode) : pystr := match m with MConnect => s "connect" | MListen => s "listen" end.
(** What the user asks for (arguments of exec_playbook_connect / exec_playbook_listen);
    paths are absolute, an empty path is not a path. *)
Record Req := mkReq {
  r_args : list pystr; r_mode : pmode; r_addr : pystr; r_no_wait : bool; r_tls : bool; r_cert : option pystr; r_key : option pystr; r_pass : option pystr; r_ca : option pystr;
  r_log : option (pystr * pystr) }.
Definition opt_env (k : pystr) (v : option pystr) : env := match v with Some (c :: v) => [(k, c :: v)] | _ => [] end.
(** 106-121 exec_playbook_listen; connect mode has none (52) *)
Definition mode_env (r : Req) : env :=
  match r_mode r with
  | MConnect => []
  | MListen => opt_env (s "ANSIBUG_TLS_SERVER_CERTFILE") (r_cert r) ++ opt_env (s "ANSIBUG_TLS_SERVER_KEYFILE") (r_key r) ++
               opt_env (s "ANSIBUG_TLS_SERVER_KEY_PASSWORD") (r_pass r) ++ opt_env (s "ANSIBUG_TLS_CLIENT_CA") (r_ca r)
  end.
(** 135-165 _exec_playbook: the program started and its environment *)
Definition exec_playbook (executable : pystr) (environ : env) (dump : list json) (path parent : pystr) (r : Req) : res (list pystr * env) :=
  bind (configure_env environ dump path parent) (fun conf =>
  let e := dmerge (dmerge environ (mode_env r)) conf in
  let e := dset e (s "ANSIBUG_DEBUG_ADDR") (r_addr r) in
  let e := dset e (s "ANSIBUG_MODE") (mode_text (r_mode r)) in
  let e := dset e (s "ANSIBUG_NO_WAIT_FOR_CONFIG_DONE") (if r_no_wait r then s "true" else s "false") in
  let e := dset e (s "ANSIBUG_USE_TLS") (match r_mode r with MConnect => s "False" | MListen => if r_tls r then s "True" else s "False" end) in
  let e := match r_log r with Some (f, l) => dset (dset e (s "ANSIBUG_LOG_FILE") f) (s "ANSIBUG_LOG_LEVEL") l | None => e end in
  Ok ([executable; s "-m"; s "ansible"; s "playbook"] ++ r_args r, e)).

(** * The TLS contexts *)
Inductive vmode := CERT_NONE | CERT_REQUIRED.
Inductive ca := CaDefault | CaFile (p : pystr) | CaDir (p : pystr).
Record Ctx := mkCtx { x_check_host : bool; x_verify : vmode; x_cas : list ca; x_chain : option (pystr * json * json) }.
Inductive fkind := KDir | KFile | KMissing.
Section Tls.
(** os.path.expanduser(os.path.expandvars(.)) followed by absolute(), the kind of a path,
    and whether OpenSSL can read the files. *)
Variable expand : pystr -> pystr.
Variable kind : pystr -> fkind.
Variable loads_ca : pystr -> bool.
Variable loads_chain : pystr * json * json -> bool.
(** ssl.create_default_context: for a client (Purpose.SERVER_AUTH) and a server *)
Definition client_default : Ctx := mkCtx true CERT_REQUIRED [CaDefault] None.
Definition server_default : Ctx := mkCtx false CERT_NONE [] None.
(** _tls.py:94-107 _load_verify_locations *)
Definition load_verify (x : Ctx) (location : json) : res Ctx :=
  match location with
  | JStr loc =>
    let p := expand loc in
    match kind p with
    | KDir => if loads_ca p then Ok (mkCtx (x_check_host x) (x_verify x) (x_cas x ++ [CaDir p]) (x_chain x)) else Err SSLError
    | KFile => if loads_ca p then Ok (mkCtx (x_check_host x) (x_verify x) (x_cas x ++ [CaFile p]) (x_chain x)) else Err SSLError
    | KMissing => Err ValueError
    end
  | _ => Err TypeError
  end.
Definition load_chain (x : Ctx) (cert : pystr) (key pass : json) : res Ctx :=
  if loads_chain (cert, key, pass) then Ok (mkCtx (x_check_host x) (x_verify x) (x_cas x) (Some (cert, key, pass))) else Err SSLError.
(** _tls.py:12-56 create_client_tls_context; the settings come from the attach request and
    can be any JSON values *)
Definition client_ctx (verify cert key pass : json) : res Ctx :=
  bind (if match verify with JStr t => eqb t (s "ignore") | _ => false end then Ok (mkCtx false CERT_NONE [CaDefault] None)
        else if match verify with JStr t => eqb t (s "verify") | _ => false end then Ok client_default
        else load_verify client_default verify) (fun x =>
  if truthy cert then match cert with JStr c => load_chain x c key pass | _ => Err TypeError end else Ok x).
(** _tls.py:58-91 create_server_tls_context; [None]: the option is not set *)
Definition server_ctx (cert key pass ca : option pystr) : res Ctx :=
  match cert with
  | None => Err TypeError
  | Some c =>
    bind (load_chain server_default c (match key with Some k => JStr k | None => JNull end) (match pass with Some k => JStr k | None => JNull end)) (fun x =>
    match ca with
    | Some (a :: r) => load_verify (mkCtx (x_check_host x) CERT_REQUIRED (x_cas x) (x_chain x)) (JStr (a :: r))
    | _ => Ok x
    end)
  end.

(** * The callback plugin *)
(** Option lookup: the environment variable of the option, else the default; bool options
    are read by Ansible's boolean(strict=False): true values below, anything else false. *)
Definition lower1 (c : N) : N := if (65 <=? c) && (c <=? 90) then c + 32 else c.
Definition to_bool (t : pystr) : bool := mem (map lower1 t) (map s ["y"; "yes"; "on"; "1"; "true"; "t"; "1.0"]%string).
Record Started := mkStarted { st_mode : pmode; st_addr : pystr; st_ctx : option Ctx; st_wait : bool; st_log : option (pystr * pystr) }.
(** resolve: how Ansible normalises options of type path. *)
Variable resolve : pystr -> pystr.
(** plugins/callback/debug.py:162-202 v2_playbook_on_start, from the options to the call of
    start() and the wait.  Configuration files (ini) are not offered by these options. *)
Definition on_start (e : env) : res Started :=
  let path k := option_map resolve (dget e k) in
  bind (match dget e (s "ANSIBUG_MODE") with
        | Some m => if eqb m (s "connect") then Ok MConnect else if eqb m (s "listen") then Ok MListen else Err OtherError
        | None => Err EUnmodelled
        end) (fun mode =>
  let addr := match dget e (s "ANSIBUG_DEBUG_ADDR") with Some a => a | None => s "localhost" end in
  let tls := match dget e (s "ANSIBUG_USE_TLS") with Some t => to_bool t | None => false end in
  bind (if tls && match mode with MListen => true | MConnect => false end
        then bind (server_ctx (path (s "ANSIBUG_TLS_SERVER_CERTFILE")) (path (s "ANSIBUG_TLS_SERVER_KEYFILE")) (dget e (s "ANSIBUG_TLS_SERVER_KEY_PASSWORD")) (path (s "ANSIBUG_TLS_CLIENT_CA"))) (fun x => Ok (Some x))
        else Ok None) (fun ctx =>
  Ok (mkStarted mode addr ctx (negb (match dget e (s "ANSIBUG_NO_WAIT_FOR_CONFIG_DONE") with Some t => to_bool t | None => false end))
       (match path (s "ANSIBUG_LOG_FILE") with Some (c :: f) => Some (c :: f, match dget e (s "ANSIBUG_LOG_LEVEL") with Some l => l | None => s "info" end) | _ => None end)))).
End Tls.
