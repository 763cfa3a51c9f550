(** File logging: src/ansibug/_logging.py, where it is switched on (callback/debug.py:168-174,
    _debug_adapter.py:205-221), and the parts of Python's [logging] these lines rely on.

    Parameters: [abspath] (os.path.abspath, used by FileHandler), [absolute] (Path.absolute), [can_open] (whether the file can
    be opened for appending), [valid_fmt] (whether logging.Formatter accepts a format) and
    [render] (the text a format gives for a record, or the exception it raises).
    Simplified: the root logger has no handlers of its own (Ansible's log_path adds one,
    which writes to another file), its level is the default WARNING, no filters are
    installed, and what is printed on stderr is kept as a list of reports. *)
From Verif Require Import PyBase PyDict AdapterModel.
Set Implicit Arguments.
Local Open Scope N_scope.

(** A log record: the logger's name, the level number, the message, and everything else a
    format can show (time, file, line, function, traceback). *)
Record Rec := mkRec { rc_logger : pystr; rc_level : N; rc_msg : pystr; rc_more : N }.
(** logging.FileHandler after setLevel and setFormatter: _logging.py:34-36. *)
Record Handler := mkHandler { hd_file : pystr; hd_level : N; hd_fmt : pystr }.
Inductive Report := RLast (r : Rec) | RFailed (r : Rec) (e : exn).
(** The files, and the state of the logger called "ansibug". *)
Record LogSt := mkLog { l_files : dict pystr bytes; l_level : N; l_handlers : list Handler; l_err : list Report }.
Definition log_init (files : dict pystr bytes) : LogSt := mkLog files 0 [] [].

(** _logging.py:11. *)
Definition default_format : pystr := s "%(asctime)s | %(name)s | %(filename)s:%(lineno)s %(funcName)s() %(message)s".
(** callback/debug.py:118-124, the default of the option log_format. *)
Definition cb_default_format : pystr := s "%(asctime)s | %(name)s | %(filename)s:%(lineno)s %(funcName)s() %(message)s".

(** _logging.py:27-32 with logging.INFO and so on. *)
Definition level_table : dict pystr N :=
  [(s "info", 20); (s "debug", 10); (s "warning", 30); (s "error", 40)].

Section L.
Variable abspath absolute : pystr -> pystr.
Variable can_open : pystr -> bool.
Variable valid_fmt : pystr -> bool.
Variable render : pystr -> Rec -> res pystr.

Definition content (st : LogSt) (p : pystr) : bytes := match dget (l_files st) p with Some b => b | None => [] end.
Definition append_file (p : pystr) (b : bytes) (st : LogSt) : LogSt :=
  mkLog (dset (l_files st) p (content st p ++ b)) (l_level st) (l_handlers st) (l_err st).
Definition report (x : Report) (st : LogSt) : LogSt := mkLog (l_files st) (l_level st) (l_handlers st) (l_err st ++ [x]).

(** _logging.py:14-41 [configure_file_logging]: the level is looked up first (KeyError),
    then the file is opened in append mode, which creates it, then the formatter is made. *)
Definition configure (file level : pystr) (format : option pystr) (st : LogSt) : LogSt * res unit :=
  match dget level_table level with
  | None => (st, Err KeyError)
  | Some n =>
    let p := abspath file in
    if negb (can_open p) then (st, Err OSError)
    else
      let st1 := append_file p [] st in
      let f := match format with Some (c :: r) => c :: r | _ => default_format end in
      if negb (valid_fmt f) then (st1, Err ValueError)
      else (mkLog (l_files st1) n (l_handlers st1 ++ [mkHandler p n f]) (l_err st1), Ok tt)
  end.

(** "ansibug" and the loggers below it: _socket_helper.py:23, _debuggee.py:33,
    _debug_adapter.py:33, _mp_queue.py:24 ([__name__]), callback/debug.py:143,
    strategy/debug.py:80. *)
Definition under_ansibug (name : pystr) : bool := eqb name (s "ansibug") || startswith name (s "ansibug.").

(** logging.StreamHandler.emit: the text and a newline are encoded and appended; an
    exception is reported on stderr and goes no further. *)
Definition handle_record (r : Rec) (st : LogSt) (h : Handler) : LogSt :=
  if rc_level r <? hd_level h then st
  else match (do t <- render (hd_fmt h) r; utf8_encode (t ++ [10])) with
       | Ok b => append_file (hd_file h) b st
       | Err e => report (RFailed r e) st
       end.
(** logging.Logger.log for a logger without level and handlers of its own: the level of
    the nearest ancestor that has one decides; handlers of the ancestors are called; with
    none at all, warnings go to stderr. *)
Definition log_record (r : Rec) (st : LogSt) : LogSt :=
  let mine := under_ansibug (rc_logger r) in
  let lvl := if mine && negb (l_level st =? 0) then l_level st else 30 in
  if rc_level r <? lvl then st
  else match (if mine then l_handlers st else []) with
       | [] => if rc_level r <? 30 then st else report (RLast r) st
       | hs => fold_left (handle_record r) hs st
       end.

(** What happens in and around a process that may log: the logging is configured, a record
    is logged, or another process appends to a file. *)
Inductive event :=
| EConf (file level : pystr) (format : option pystr)
| ERec (r : Rec)
| EOther (p : pystr) (b : bytes).
Definition happens (st : LogSt) (e : event) : LogSt :=
  match e with
  | EConf f l fmt => fst (configure f l fmt st)
  | ERec r => log_record r st
  | EOther p b => append_file p b st
  end.
Definition history (st : LogSt) (es : list event) : LogSt := fold_left happens es st.

(** callback/debug.py:168-174. *)
Definition cb_logging (log_file : option pystr) (level format : pystr) : list event :=
  match log_file with Some (c :: f) => [EConf (c :: f) level (Some format)] | _ => [] end.

(** _debug_adapter.py:205-221 [start_dap]; [body] is what happens while the server runs and
    how that ends; [more] is the rest of the three records of its own.  The path is made
    absolute before it is handed over. *)
Definition adapter : pystr := s "ansibug._debug_adapter".
Definition start_dap (log_file : option pystr) (level : pystr) (body : list event * res unit) (more : N * N)
    (st : LogSt) : LogSt * res unit :=
  let go st1 :=
    let st2 := history (log_record (mkRec adapter 20 (s "DAP starting") (fst more)) st1) (fst body) in
    match snd body with
    | Err e => (log_record (mkRec adapter 40 (s "Exception when running DA Server") (snd more)) st2, Err e)
    | Ok _ => (log_record (mkRec adapter 20 (s "DAP ending") (snd more)) st2, Ok tt)
    end in
  match log_file with
  | None => go st
  | Some f => match configure (absolute f) level None st with
              | (st1, Ok _) => go st1
              | (st1, Err e) => (st1, Err e) end
  end.
End L.
