(** What a command line of ansibug means, written from the documentation of the options and of argparse's
    conventions (options before the playbook, values separate or after "=", unambiguous abbreviations,
    the last one counts), without the parser.  Used by C64. *)
From Verif Require Import PyBase PyDict ExecModel.
Set Implicit Arguments.
Local Open Scope N_scope.

Definition prefix_of (p l : pystr) : Prop := exists r, l = p ++ r.
Definition no_eq (w : pystr) : Prop := ~ In 61 w.

(** The options of each action that take a value, and the switches. *)
Inductive action := Connect | Dap | Listen.
Definition action_name (a : action) : pystr := match a with Connect => s "connect" | Dap => s "dap" | Listen => s "listen" end.
Definition valued (a : action) : list pystr :=
  match a with
  | Connect => [s "--addr"; s "--log-file"; s "--log-level"]
  | Dap => [s "--log-file"; s "--log-level"; s "--temp-dir"]
  | Listen => [s "--addr"; s "--log-file"; s "--log-level"; s "--tls-cert"; s "--tls-key"; s "--tls-key-pass"; s "--tls-client-ca"]
  end.
Definition switches (a : action) : list pystr :=
  match a with Connect => [s "--no-wait"] | Dap => [] | Listen => [s "--no-wait"; s "--wrap-tls"] end.
Definition names (a : action) : list pystr := [s "-h"; s "--help"] ++ valued a ++ switches a.

(** [w] is a way to write option [o]: in full, or abbreviated so that no other option begins with it. *)
Definition denotes (a : action) (w o : pystr) : Prop :=
  In o (names a) /\ no_eq w /\
  (w = o \/ (prefix_of (s "--") w /\ ~ In w (names a) /\ prefix_of w o /\ forall o', In o' (names a) -> prefix_of w o' -> o' = o)).
(** [t] can be the beginning of two options *)
Definition clash (a : action) (t : pystr) : Prop :=
  exists w, (t = w \/ exists v, t = w ++ 61 :: v) /\ no_eq w /\ prefix_of (s "--") w /\ ~ In w (names a) /\
    exists o1 o2, In o1 (names a) /\ In o2 (names a) /\ o1 <> o2 /\ prefix_of w o1 /\ prefix_of w o2.

Section Neg.
Variable negative_number : pystr -> bool.
(** [t] is not taken for an option: it does not begin with "-", or is just "-", or could not be an option but is a
    negative number or contains a blank *)
Definition positional (a : action) (t : pystr) : Prop :=
  hd_error t <> Some 45 \/ t = [45] \/
  ((forall w, prefix_of (s "--") w -> no_eq w -> (t = w \/ exists v, t = w ++ 61 :: v) -> forall o, In o (names a) -> ~ prefix_of w o) /\
   ~ prefix_of (s "-h") t /\ (negative_number t = true \/ In 32 t)).

(** One setting: option [o] written as [w], with a value (separate or after "="), or a switch. *)
Inductive setting := Sep (o w v : pystr) | Eq (o w v : pystr) | Switch (o w : pystr).
Definition text_of (x : setting) : list pystr :=
  match x with Sep o w v => [w; v] | Eq o w v => [w ++ 61 :: v] | Switch o w => [w] end.
Definition setting_ok (a : action) (x : setting) : Prop :=
  match x with
  | Sep o w v => In o (valued a) /\ denotes a w o /\ positional a v
  | Eq o w v => In o (valued a) /\ denotes a w o
  | Switch o w => In o (switches a) /\ denotes a w o
  end.
Definition sets (x : setting) (o : pystr) : option pystr :=
  match x with Sep o' _ v | Eq o' _ v => if eqb o' o then Some v else None | Switch _ _ => None end.
(** the last value given for [o] *)
Definition last_value (l : list setting) (o : pystr) : option pystr :=
  fold_left (fun acc x => match sets x o with Some v => Some v | None => acc end) l None.
Definition switched (l : list setting) (o : pystr) : bool :=
  existsb (fun x => match x with Switch o' _ => eqb o' o | _ => false end) l.
Definition valid_levels (l : list setting) : Prop :=
  forall x v, In x l -> sets x (s "--log-level") = Some v -> In v [s "info"; s "debug"; s "warning"; s "error"].

(** The arguments left for ansible-playbook: none, or from the first that is not taken for an option. *)
Definition rest_ok (a : action) (rest : list pystr) : Prop :=
  match rest with [] => True | t :: _ => t = s "--" \/ positional a t end.
Fixpoint until_dd (ts : list pystr) : list pystr :=
  match ts with [] => [] | t :: r => if eqb t (s "--") then [] else t :: until_dd r end.
Variable eager : bool.
(** where all arguments are classified first, none may be an ambiguous abbreviation *)
Definition no_clash (a : action) (ts : list pystr) : Prop := eager = true -> forall t, In t (until_dd ts) -> ~ clash a t.

(** [argv] is a command line of action [a] with settings [l], passing [rest] on. *)
Definition line (a : action) (l : list setting) (rest argv : list pystr) : Prop :=
  argv = action_name a :: flat_map text_of l ++ rest /\ Forall (setting_ok a) l /\ rest_ok a rest /\ no_clash a (flat_map text_of l ++ rest) /\ valid_levels l.
Section Meaning.
Variable to_path : pystr -> pystr.
Variable key_pass : option pystr.
Definition or_else (x : option pystr) (d : pystr) : pystr := match x with Some v => v | None => d end.
Definition log_setting (l : list setting) : option (pystr * pystr) :=
  match last_value l (s "--log-file") with Some f => Some (to_path f, or_else (last_value l (s "--log-level")) (s "info")) | None => None end.
(** what exec_playbook_connect / exec_playbook_listen are asked for *)
Definition asked (a : action) (l : list setting) (rest : list pystr) : Req :=
  let path o := option_map to_path (last_value l o) in
  match a with
  | Listen =>
    mkReq rest MListen (or_else (last_value l (s "--addr")) (s "uds://")) (switched l (s "--no-wait")) (switched l (s "--wrap-tls"))
      (path (s "--tls-cert")) (path (s "--tls-key")) (match last_value l (s "--tls-key-pass") with Some p => Some p | None => key_pass end) (path (s "--tls-client-ca")) (log_setting l)
  | _ => mkReq rest MConnect (or_else (last_value l (s "--addr")) []) (switched l (s "--no-wait")) false None None None None (log_setting l)
  end.
End Meaning.
End Neg.
