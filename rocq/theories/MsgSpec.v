(** Specification vocabulary for the message library: which objects are well-typed instances
    of a message class.  Independent of the pack/unpack functions (it uses only the class tables). *)
From Verif Require Import PyBase PyDict JsonModel JsonProofs MsgBase MsgTables MsgModel TruthSpec.

Definition alls {A} (P : A -> Prop) (l : list A) : Prop := fold_right (fun x Q => P x /\ Q) True l.

(** plain JSON data: text of unicode scalar values, string keys that are distinct *)
Fixpoint jsonval (v : pval) : Prop :=
  match v with
  | PNull | PBool _ | PInt _ => True
  | PStr t => Forall scalar t
  | PList l => fold_right (fun x Q => jsonval x /\ Q) True l
  | PDict d => NoDup (map fst d) /\ fold_right (fun kv Q => (Forall scalar (fst kv) /\ jsonval (snd kv)) /\ Q) True d
  | PEnum _ _ | PObj _ _ => False
  end.

(** is the attribute transmitted at all (mentioned in the class's dap mapping)? *)
Fixpoint entry_fields (e : mentry) : list pystr :=
  match e with MF f => [f] | MN m => flat_map (fun ke => entry_fields (snd ke)) m end.
Definition mapped (c : cid) (f : pystr) : Prop := In f (flat_map (fun ke => entry_fields (snd ke)) (dapmap c)).

(** [wt u v]: [v] is a value an attribute declared with unpacker [u] may hold: plain data, an enum member,
    or an object of the class (one without hand written unpack) whose attributes are all present, in declaration order, and
    - [None] only where [None] is the default (Optional fields),
    - a list only of admissible elements,
    - an attribute that is not transmitted holds its default. *)
Fixpoint wt (u : unpacker) (v : pval) {struct v} : Prop :=
  match u with
  | UId => jsonval v
  | UEnum e => match v with PEnum e' t => e' = e /\ In t (members e) | _ => False end
  | UObj c =>
    match v with
    | PObj c' attrs =>
      c' = c /\ custom c = false /\ map fst attrs = map fname (fields c) /\
      fold_right (fun kx Q =>
        (forall fd, In fd (fields c) -> fname fd = fst kx ->
           (match snd kx with
            | PNull => fdef fd = FDef PNull
            | PList l => fold_right (fun x Q => wt (funp fd) x /\ Q) True l
            | _ => wt (funp fd) (snd kx)
            end) /\ (~ mapped c (fst kx) -> fdef fd = FDef (snd kx))) /\ Q) True attrs
    | _ => False
    end
  end.

Definition attr (v : pval) (f : String.string) : option pval :=
  match v with PObj _ attrs => dget attrs (s f) | _ => None end.
Arguments attr v f%string_scope.

(** A protocol message of class [c]: a well-typed instance whose type, command/event and success
    attributes are those of the class (ErrorResponse: any command, success is False). *)
Definition msg_of (c : cid) (kind : mtype) (v : pval) : Prop :=
  wt (UObj c) v /\
  match kind with
  | MReq => attr v "message_type" = Some (PEnum E_MessageType (s "request")) /\
            exists t, attr v "command" = Some (PEnum E_Command t) /\ In (t, c) reg_request
  | MResp => attr v "message_type" = Some (PEnum E_MessageType (s "response")) /\
            ((attr v "success" = Some (PBool true) /\ exists t, attr v "command" = Some (PEnum E_Command t) /\ In (t, c) reg_response)
             \/ (attr v "success" = Some (PBool false) /\ c = C_ErrorResponse))
  | MEvt => attr v "message_type" = Some (PEnum E_MessageType (s "event")) /\
            exists t, attr v "event" = Some (PEnum E_EventType t) /\ In (t, c) reg_event
  end.

(** launch/attach: the client-defined argument dictionary does not use the two protocol member names *)
Definition launch_of (c : cid) (v : pval) : Prop :=
  (exists seq args restart,
     c = C_AttachRequest /\ jsonval seq /\ jsonval (PDict args) /\ jsonval restart /\
     ~ In (s "__restart") (map fst args) /\
     v = PObj C_AttachRequest [(s "seq", seq); (s "message_type", PEnum E_MessageType (s "request"));
                               (s "command", PEnum E_Command (s "attach"));
                               (s "arguments", PDict args); (s "restart", restart)]) \/
  (exists seq args nodebug restart,
     c = C_LaunchRequest /\ jsonval seq /\ jsonval (PDict args) /\ jsonval nodebug /\ jsonval restart /\
     ~ In (s "__restart") (map fst args) /\ ~ In (s "noDebug") (map fst args) /\
     v = PObj C_LaunchRequest [(s "seq", seq); (s "message_type", PEnum E_MessageType (s "request"));
                               (s "command", PEnum E_Command (s "launch"));
                               (s "arguments", PDict args); (s "no_debug", nodebug); (s "restart", restart)]).

(** ** C08 vocabulary: what a message class declares in its own body *)
Definition field_default (c : cid) (f : String.string) : option pval :=
  match find (fun fd => eqb (fname fd) (s f)) (fields c) with
  | Some fd => match fdef fd with FDef v => Some v | _ => None end
  | None => None
  end.
Arguments field_default c f%string_scope.
(** class [c] is declared as the request / successful response for command [t], or the event [t] *)
Definition declares (c : cid) (kind : mtype) (t : pystr) : Prop :=
  match kind with
  | MReq => field_default c "message_type" = Some (PEnum E_MessageType (s "request")) /\
            field_default c "command" = Some (PEnum E_Command t)
  | MResp => field_default c "message_type" = Some (PEnum E_MessageType (s "response")) /\
            field_default c "command" = Some (PEnum E_Command t)
  | MEvt => field_default c "message_type" = Some (PEnum E_MessageType (s "event")) /\
            field_default c "event" = Some (PEnum E_EventType t)
  end.
(** the class a received object stands for *)
Definition selected (d : list (pystr * json)) (c : cid) : Prop :=
  (exists t, dget d (s "type") = Some (JStr (s "request")) /\ dget d (s "command") = Some (JStr t) /\ declares c MReq t) \/
  (exists t su, dget d (s "type") = Some (JStr (s "response")) /\ dget d (s "success") = Some su /\ ~ falsy su /\
     dget d (s "command") = Some (JStr t) /\ (declares c MResp t \/ (t = s "error" /\ c = C_ErrorResponse))) \/
  (exists su, dget d (s "type") = Some (JStr (s "response")) /\ dget d (s "success") = Some su /\ falsy su /\
     c = C_ErrorResponse) \/
  (exists t, dget d (s "type") = Some (JStr (s "event")) /\ dget d (s "event") = Some (JStr t) /\ declares c MEvt t).

Definition class_of (v : pval) : option cid := match v with PObj c _ => Some c | _ => None end.

(** ** C09 vocabulary: [d'] is [d] with members added that are null or that the protocol table of the class
    does not know, at the top level, inside arguments/body, or inside objects held by a field. *)
Inductive noise : unpacker -> json -> json -> Prop :=
| noise_refl u j : noise u j j
| noise_arr u l l' : noise_list u l l' -> noise u (JArr l) (JArr l')
| noise_obj c d d' : custom c = false -> noise_members c true (dapmap c) d d' -> noise (UObj c) (JObj d) (JObj d')
with noise_list : unpacker -> list json -> list json -> Prop :=
| noise_nil u : noise_list u [] []
| noise_cons u x x' l l' : noise u x x' -> noise_list u l l' -> noise_list u (x :: l) (x' :: l')
with noise_members : cid -> bool -> list (pystr * mentry) -> list (pystr * json) -> list (pystr * json) -> Prop :=
| nm_nil c top m : noise_members c top m [] []
| nm_keep c top m k v d d' : noise_members c top m d d' -> noise_members c top m ((k, v) :: d) ((k, v) :: d')
| nm_field c top m k f fd v v' d d' : dget m k = Some (MF f) -> find_field c f = Some fd -> noise (funp fd) v v' ->
    noise_members c top m d d' -> noise_members c top m ((k, v) :: d) ((k, v') :: d')
| nm_nested c top m k m' x x' d d' : dget m k = Some (MN m') -> noise_members c false m' x x' ->
    noise_members c top m d d' -> noise_members c top m ((k, JObj x) :: d) ((k, JObj x') :: d')
| nm_null c top m k d d' : noise_members c top m d d' -> noise_members c top m d ((k, JNull) :: d')
| nm_unknown c top m k v d d' : dget m k = None -> (top = true -> k <> s "__types") ->
    noise_members c top m d d' -> noise_members c top m d ((k, v) :: d').
