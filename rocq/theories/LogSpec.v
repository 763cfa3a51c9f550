(** Specification vocabulary for log files: what was asked for, and what a file must then
    contain. *)
From Verif Require Import PyBase PyDict AdapterModel LogModel.
Set Implicit Arguments.
Local Open Scope N_scope.

(** The severities a user can ask for. *)
Inductive severity : pystr -> N -> Prop :=
| sev_debug : severity (s "debug") 10
| sev_info : severity (s "info") 20
| sev_warning : severity (s "warning") 30
| sev_error : severity (s "error") 40.

(** A record of one of ansibug's own loggers. *)
Definition of_ansibug (r : Rec) : Prop := rc_logger r = s "ansibug" \/ exists x, rc_logger r = s "ansibug." ++ x.

(** The format asked for; none or an empty one is the default. *)
Definition fmt_or (f : option pystr) : pystr :=
  match f with None | Some [] => s "%(asctime)s | %(name)s | %(filename)s:%(lineno)s %(funcName)s() %(message)s" | Some x => x end.

Section S.
Variable abspath : pystr -> pystr.
Variable can_open : pystr -> bool.
Variable valid_fmt : pystr -> bool.
Variable render : pystr -> Rec -> res pystr.

(** The bytes of one record: its text and a line end, in UTF-8.  A record that cannot be
    shown or encoded gives none. *)
Definition line (fmt : pystr) (r : Rec) : bytes :=
  match render fmt r with
  | Ok t => match utf8_encode (t ++ [10]) with Ok b => b | Err _ => [] end
  | Err _ => [] end.

(** [asked es p n fmt]: [es] asks for a log of severity [n] in file [p] last. *)
Definition asks (e : event) (p : pystr) (n : N) (fmt : pystr) : Prop :=
  exists file level f, e = EConf file level f /\ p = abspath file /\ severity level n /\ fmt = fmt_or f /\
    can_open p = true /\ valid_fmt fmt = true.
Definition is_conf (e : event) : Prop := exists file level f, e = EConf file level f.

(** What an event adds to file [p] when a log of severity [n] is kept in file [q]. *)
Inductive adds (p q : pystr) (n : N) (fmt : pystr) : event -> bytes -> Prop :=
| add_rec r : p = q -> of_ansibug r -> n <= rc_level r -> adds p q n fmt (ERec r) (line fmt r)
| add_file r : p <> q -> adds p q n fmt (ERec r) []
| add_other_logger r : ~ of_ansibug r -> adds p q n fmt (ERec r) []
| add_below r : rc_level r < n -> adds p q n fmt (ERec r) []
| add_theirs b : adds p q n fmt (EOther p b) b
| add_elsewhere o b : o <> p -> adds p q n fmt (EOther o b) [].
(** ... and when no log is kept. *)
Inductive adds0 (p : pystr) : event -> bytes -> Prop :=
| add0_rec r : adds0 p (ERec r) []
| add0_theirs b : adds0 p (EOther p b) b
| add0_elsewhere o b : o <> p -> adds0 p (EOther o b) [].

(** The logs asked for so far, oldest first: file, severity and format. *)
Inductive asked : list event -> list (pystr * N * pystr) -> Prop :=
| asked_none : asked [] []
| asked_more es l e q n fmt : asked es l -> asks e q n fmt -> asked (es ++ [e]) (l ++ [(q, n, fmt)])
| asked_same es l e : asked es l -> (forall q n fmt, ~ asks e q n fmt) -> asked (es ++ [e]) l.
(** The severity asked for last. *)
Definition latest (l : list (pystr * N * pystr)) (n : N) : Prop := exists l' q fmt, l = l' ++ [(q, n, fmt)].
(** What a record adds to file [p] for one of the logs asked for: the severity of this log
    and the severity asked for last both have to be reached. *)
Definition gets (r : Rec) (p : pystr) (l : list (pystr * N * pystr)) (x : pystr * N * pystr) (b : bytes) : Prop :=
  let '(q, n, fmt) := x in
  let wanted := q = p /\ of_ansibug r /\ n <= rc_level r /\ (forall m, latest l m -> m <= rc_level r) in
  (wanted /\ b = line fmt r) \/ (~ wanted /\ b = []).
End S.
