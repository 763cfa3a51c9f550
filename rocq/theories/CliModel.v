(** The command line: __main__.py, with the part of the standard library's argparse that it exercises
    (Python 3.11.10 and 3.12.3, argparse.py _parse_known_args, _parse_optional, _get_option_tuples,
    _get_values).  [None]: usage or help is printed and the process ends, nothing is started. *)
From Verif Require Import PyBase PyDict ExecModel.
Set Implicit Arguments.
Local Open Scope N_scope.

Inductive okind := KHelp | KFlag | KStore.
(** The options of a parser in the order of definition. *)
Notation opts := (list (pystr * okind)).
Definition log_opts : opts := [(s "--log-file", KStore); (s "--log-level", KStore)]. (* __main__.py:39-54 *)
(** __main__.py:131-139, 24-36 *)
Definition connect_opts : opts := [(s "-h", KHelp); (s "--help", KHelp); (s "--addr", KStore)] ++ log_opts ++ [(s "--no-wait", KFlag)].
(** __main__.py:152-165 *)
Definition dap_opts : opts := [(s "-h", KHelp); (s "--help", KHelp)] ++ log_opts ++ [(s "--temp-dir", KStore)].
(** __main__.py:178-201, 57-99 *)
Definition listen_opts : opts :=
  [(s "-h", KHelp); (s "--help", KHelp); (s "--addr", KStore)] ++ log_opts ++
  [(s "--no-wait", KFlag); (s "--wrap-tls", KFlag); (s "--tls-cert", KStore); (s "--tls-key", KStore); (s "--tls-key-pass", KStore); (s "--tls-client-ca", KStore)].

(** arg.partition("=") *)
Fixpoint partition_eq (t : pystr) : pystr * option pystr :=
  match t with
  | [] => ([], None)
  | c :: r => if c =? 61 then ([], Some r) else let '(a, b) := partition_eq r in (c :: a, b)
  end.
(** argparse _get_option_tuples: all readings of an argument as an option, with an explicit value *)
Definition readings (o : opts) (t : pystr) : list (pystr * option pystr) :=
  match t with
  | a :: b :: rest =>
    if b =? 45 then
      let '(p, e) := partition_eq t in map (fun n => (n, e)) (filter (fun n => startswith n p) (map fst o))
    else
      flat_map (fun n => if eqb n [a; b] then [(n, Some rest)] else if startswith n t then [(n, None)] else []) (map fst o)
  | _ => []
  end.
(** argparse _parse_optional.  [CArg]: a positional argument or a value *)
Inductive cls := CArg | COpt (name : pystr) (explicit : option pystr) | CUnknown | CAmbiguous.
Section Parse.
(** the regular expression ^-\d+$|^-\d*\.\d+$, which decides what looks like a negative number *)
Variable negative_number : pystr -> bool.
(** Are all the arguments before "--" classified first (as in 3.11 and 3.12.3), so that an ambiguous
    one is an error wherever it stands?  In later versions only when it is reached. *)
Variable eager : bool.

Definition classify (o : opts) (t : pystr) : cls :=
  match t with
  | [] => CArg
  | c :: rest =>
    if negb (c =? 45) then CArg
    else if mem t (map fst o) then COpt t None
    else if eqb rest [] then CArg
    else
      let '(p, e) := partition_eq t in
      match e with
      | Some v => if mem p (map fst o) then COpt p (Some v) else
          match readings o t with
          | [r] => COpt (fst r) (snd r)
          | _ :: _ => CAmbiguous
          | [] => if negative_number t then CArg else if mem 32 t then CArg else CUnknown
          end
      | None =>
          match readings o t with
          | [r] => COpt (fst r) (snd r)
          | _ :: _ => CAmbiguous
          | [] => if negative_number t then CArg else if mem 32 t then CArg else CUnknown
          end
      end
  end.
Definition kind_of (o : opts) (n : pystr) : okind := match dget o n with Some k => k | None => KHelp end.
Definition add {A B} (a : A) (r : option (list A * B)) : option (list A * B) := match r with Some (l, x) => Some (a :: l, x) | None => None end.

(** argparse _parse_known_args: options and their values up to the first positional argument, which
    (nargs=REMAINDER) takes all that follows; an argument "--" is positional *)
Fixpoint walk (o : opts) (fuel : nat) (ts : list pystr) : option (list (pystr * option pystr) * list pystr) :=
  match fuel with
  | O => None
  | S fuel =>
    match ts with
    | [] => Some ([], [])
    | t :: r =>
      if eqb t (s "--") then Some ([], ts)
      else
        match classify o t with
        | CArg => Some ([], ts)
        | CUnknown | CAmbiguous => None
        | COpt n e =>
          match kind_of o n with
          | KHelp => None
          | KFlag => match e with None => add (n, None) (walk o fuel r) | Some _ => None end
          | KStore =>
            match e with
            | Some v => add (n, Some v) (walk o fuel r)
            | None =>
              match r with
              | [] => None
              | v :: r' => if eqb v (s "--") then None else match classify o v with CArg => add (n, Some v) (walk o fuel r') | _ => None end
              end
            end
          end
        end
    end
  end.
Fixpoint before_dd (ts : list pystr) : list pystr :=
  match ts with [] => [] | t :: r => if eqb t (s "--") then [] else t :: before_dd r end.
Definition ambiguous (o : opts) (t : pystr) : bool := match classify o t with CAmbiguous => true | _ => false end.
Definition parse_opts (o : opts) (ts : list pystr) : option (list (pystr * option pystr) * list pystr) :=
  if eager && existsb (ambiguous o) (before_dd ts) then None else walk o (S (length ts)) ts.

(** the namespace: the last value given *)
Fixpoint value_of (l : list (pystr * option pystr)) (n : pystr) : option pystr :=
  match l with
  | [] => None
  | (m, v) :: r => match value_of r n with Some x => Some x | None => if eqb m n then v else None end
  end.
Definition given (l : list (pystr * option pystr)) (n : pystr) : bool := existsb (fun p => eqb (fst p) n) l.
Definition levels : list pystr := [s "info"; s "debug"; s "warning"; s "error"]. (* __main__.py:50 *)
Definition levels_ok (l : list (pystr * option pystr)) : bool :=
  forallb (fun p => if eqb (fst p) (s "--log-level") then match snd p with Some v => mem v levels | None => false end else true) l.

Variable to_path : pystr -> pystr. (* str(_parse_path(.).absolute()): __main__.py:102-103, _exec_playbook.py:108-121, 158 *)
Variable key_pass : option pystr.  (* os.environ.get("ANSIBUG_TLS_KEY_PASS"): __main__.py:82 *)
Inductive Run := RunDap (log : option pystr) (level : pystr) (temp : option pystr) | RunPlaybook (r : Req).
Definition level_of l : pystr := match value_of l (s "--log-level") with Some v => v | None => s "info" end.
(** the log settings given to _exec_playbook: the level only matters with a file *)
Definition log_of l : option (pystr * pystr) := match value_of l (s "--log-file") with Some f => Some (to_path f, level_of l) | None => None end.
(** __main__.py:106-206 parse_args and 209-236 main.  The main parser's only options are -h and --help:
    an option before the action means help or an error. *)
Definition cli (argv : list pystr) : option Run :=
  match argv with
  | [] => None
  | a :: ts =>
    if eqb a (s "connect") then
      match parse_opts connect_opts ts with
      | Some (l, rest) =>
        match value_of l (s "--addr") with
        | Some addr => if levels_ok l then Some (RunPlaybook (mkReq rest MConnect addr (given l (s "--no-wait")) false None None None None (log_of l))) else None
        | None => None
        end
      | None => None
      end
    else if eqb a (s "dap") then
      match parse_opts dap_opts ts with
      | Some (l, []) => if levels_ok l then Some (RunDap (option_map to_path (value_of l (s "--log-file"))) (level_of l) (option_map to_path (value_of l (s "--temp-dir")))) else None
      | _ => None
      end
    else if eqb a (s "listen") then
      match parse_opts listen_opts ts with
      | Some (l, rest) =>
        if levels_ok l then
          Some (RunPlaybook (mkReq rest MListen (match value_of l (s "--addr") with Some x => x | None => s "uds://" end) (given l (s "--no-wait")) (given l (s "--wrap-tls"))
                 (option_map to_path (value_of l (s "--tls-cert"))) (option_map to_path (value_of l (s "--tls-key")))
                 (match value_of l (s "--tls-key-pass") with Some x => Some x | None => key_pass end)
                 (option_map to_path (value_of l (s "--tls-client-ca"))) (log_of l)))
        else None
      | None => None
      end
    else None
  end.
End Parse.
