(** What a DAP request says, read off its JSON members; written from the protocol description,
    without the message library.  Used by C65. *)
From Coq Require String.
From Verif Require Import PyBase PyDict JsonModel DbgTypes.
Set Implicit Arguments.

(** the member reached by a path of names; null when some step is missing *)
Fixpoint at_ (j : json) (p : list pystr) : json :=
  match p with
  | [] => j
  | k :: p' => match j with
               | JObj d => match dget d k with Some v => at_ v p' | None => JNull end
               | _ => JNull
               end
  end.
Definition member (j : json) (k : String.string) : json := at_ j [s k].
Definition arg (j : json) (k : String.string) : json := at_ j [s "arguments"; s k].
Arguments member j k%string_scope.
Arguments arg j k%string_scope.

(** typed readings of a member *)
Definition num (j : json) (n : N) : Prop := j = JInt (Z.of_N n).
Definition num_opt (j : json) (o : option N) : Prop :=
  (j = JNull /\ o = None) \/ (exists n, j = JInt (Z.of_N n) /\ o = Some n).
Definition text (j : json) (t : pystr) : Prop := j = JStr t.
Definition text_opt (j : json) (o : option pystr) : Prop :=
  (j = JNull /\ o = None) \/ (exists t, j = JStr t /\ o = Some t).
Definition flag (dflt : bool) (j : json) (b : bool) : Prop := j = JBool b \/ (j = JNull /\ b = dflt).
Definition flag_opt (j : json) (o : option bool) : Prop :=
  (j = JNull /\ o = None) \/ (exists b, j = JBool b /\ o = Some b).
(** an array, or nothing at all for the empty one *)
Definition listing {A} (P : json -> A -> Prop) (j : json) (l : list A) : Prop :=
  (exists js, j = JArr js /\ Forall2 P js l) \/ (j = JNull /\ l = []).
Definition is_object (j : json) : Prop := exists d, j = JObj d.

(** DAP SourceBreakpoint and Source *)
Definition bp_says (j : json) (b : SourceBreakpoint) : Prop :=
  is_object j /\ member j "line" = JInt (sb_line b) /\ text_opt (member j "condition") (sb_cond b).
Definition src_says (j : json) (x : Source) : Prop :=
  is_object j /\ text_opt (member j "path") (src_path x).

(** The request with sequence number [q] that the JSON value [j] is.  [single] is the reading of
    a continue request without singleThread: only the named thread ([true]), or all ([false]). *)
Section Says.
  Variable single : bool.
  Variable j : json.
  Definition called (cmd : String.string) : Prop :=
    member j "type" = JStr (s "request") /\ member j "command" = JStr (s cmd).
  Arguments called cmd%string_scope.
  Definition objargs : Prop := member j "arguments" = JNull \/ is_object (member j "arguments").
  Inductive act : Req -> Prop :=
  | S_configurationDone : called "configurationDone" -> act RConfigurationDone
  | S_continue t b : called "continue" -> num (arg j "threadId") t -> flag single (arg j "singleThread") b -> act (RContinue t b)
  | S_disconnect o : called "disconnect" -> objargs -> flag_opt (arg j "terminateDebuggee") o -> act (RDisconnect o)
  | S_evaluate e f c : called "evaluate" -> text (arg j "expression") e -> num_opt (arg j "frameId") f ->
      text_opt (arg j "context") c -> act (REvaluate e f c)
  | S_next t : called "next" -> num (arg j "threadId") t -> act (RNext t)
  | S_scopes f : called "scopes" -> num (arg j "frameId") f -> act (RScopes f)
  | S_setExceptionBreakpoints l : called "setExceptionBreakpoints" -> objargs -> listing text (arg j "filters") l -> act (RSetException l)
  | S_setBreakpoints x l m : called "setBreakpoints" -> src_says (arg j "source") x -> listing bp_says (arg j "breakpoints") l ->
      flag false (arg j "sourceModified") m -> act (RSetBreakpoints x l m)
  | S_setVariable r n v : called "setVariable" -> num (arg j "variablesReference") r -> text (arg j "name") n ->
      text (arg j "value") v -> act (RSetVariable r n v)
  | S_stackTrace t : called "stackTrace" -> num (arg j "threadId") t -> act (RStackTrace t)
  | S_stepIn t : called "stepIn" -> num (arg j "threadId") t -> arg j "targetId" = JNull -> act (RStepIn t)
  | S_stepOut t : called "stepOut" -> num (arg j "threadId") t -> act (RStepOut t)
  | S_terminate : called "terminate" -> objargs -> act RTerminate
  | S_threads : called "threads" -> act RThreads
  | S_variables r : called "variables" -> num (arg j "variablesReference") r -> act (RVariables r).
  Definition says (q : Z) (r : Req) : Prop := member j "seq" = JInt q /\ act r.
End Says.

(** two requests that differ only in members the debuggee merely copies *)
Definition src_blank (x : Source) : Source := mkSource (src_path x) 0.
Definition sb_blank (b : SourceBreakpoint) : SourceBreakpoint := mkSB (sb_line b) (sb_cond b) 0.
Definition blank (r : Req) : Req :=
  match r with
  | RSetBreakpoints x l m => RSetBreakpoints (src_blank x) (map sb_blank l) m
  | _ => r
  end.

(** the optional members whose value is itself a structured object; nothing in the debuggee reads them *)
Definition no_structured_extras (j : json) : Prop :=
  arg j "format" = JNull /\ arg j "filterOptions" = JNull /\ arg j "exceptionOptions" = JNull /\
  member (arg j "source") "sources" = JNull /\ member (arg j "source") "checksums" = JNull.
(** no member is called "__types", the name the message library reserves (C09) *)
Fixpoint unreserved (j : json) : Prop :=
  match j with
  | JArr l => fold_right (fun x P => unreserved x /\ P) True l
  | JObj d => ~ In (s "__types") (map fst d) /\ fold_right (fun kv P => unreserved (snd kv) /\ P) True d
  | _ => True
  end.
