(** Model of pack/unpack of DAP messages: src/ansibug/dap/_messages.py. *)
From Verif Require Import PyBase PyDict JsonModel MsgBase MsgTables.

(** JSON data as Python values (json.loads result). *)
Fixpoint lift (j : json) : pval :=
  match j with
  | JNull => PNull | JBool b => PBool b | JInt z => PInt z | JStr t => PStr t
  | JArr l => PList (map lift l)
  | JObj d => PDict (map (fun kv => (fst kv, lift (snd kv))) d)
  end.

(** dap/_messages.py:189-211 default_pack: walk the dap mapping, reading attributes.
    The todo queue of the code is a breadth first walk; the keys of one mapping are distinct,
    so the result equals this depth first walk.  [attrs] holds the already encoded attributes. *)
Fixpoint pack_entry (attrs : list (pystr * json)) (e : mentry) {struct e} : res json :=
  match e with
  | MF f => match dget attrs f with Some v => Ok v | None => Err AttributeError end
  | MN m => do d <- mapM (fun ke => do v <- pack_entry attrs (snd ke); Ok (fst ke, v)) m; Ok (JObj d)
  end.
Definition default_pack (c : cid) (attrs : list (pystr * json)) : res (list (pystr * json)) :=
  mapM (fun ke => do v <- pack_entry attrs (snd ke); Ok (fst ke, v)) (dapmap c).

(** dap/_requests.py:38-42 AttachRequest.pack and :254-258 LaunchRequest.pack:
    default pack, then value["arguments"].update(self.arguments). *)
Definition custom_pack (c : cid) (attrs : list (pystr * json)) : res (list (pystr * json)) :=
  do d <- default_pack c attrs;
  match dget d (s "arguments"), dget attrs (s "arguments") with
  | Some (JObj a), Some (JObj upd) => Ok (dset d (s "arguments") (JObj (dmerge a upd)))
  | _, _ => Err TypeError
  end.
Definition pack_attrs (c : cid) (attrs : list (pystr * json)) : res (list (pystr * json)) :=
  if custom c then custom_pack c attrs else default_pack c attrs.

(** msg.pack() followed by the JSON encoder's handling of nested values
    (dap/_messages.py:63-72 DAPEncoder.default: objects are packed, enums give their value).
    Attribute values of other Python types, which the encoder turns into str(obj), are not modelled. *)
Fixpoint enc (v : pval) : res json :=
  match v with
  | PNull => Ok JNull | PBool b => Ok (JBool b) | PInt z => Ok (JInt z) | PStr t => Ok (JStr t)
  | PList l => do r <- mapM enc l; Ok (JArr r)
  | PDict d => do r <- mapM (fun kv => do x <- enc (snd kv); Ok (fst kv, x)) d; Ok (JObj r)
  | PEnum _ t => Ok (JStr t)
  | PObj c attrs =>
    do r <- mapM (fun kv => do x <- enc (snd kv); Ok (fst kv, x)) attrs;
    do d <- pack_attrs c r; Ok (JObj d)
  end.

(** Enum(value) : ValueError unless a member has this value. *)
Definition enum_of (e : eid) (j : json) : res pval :=
  match j with
  | JStr t => if mem t (members e) then Ok (PEnum e t) else Err ValueError
  | _ => Err ValueError
  end.

Definition find_field (c : cid) (n : pystr) : option field :=
  find (fun f => eqb (fname f) n) (fields c).

Section Unpack.
  (** unpack function of a nested class: cls.unpack(value) *)
  Variable sub : cid -> json -> res pval.

  (** dap/_messages.py:259-261, 267: unpack_func(value) *)
  Definition apply_unpacker (u : unpacker) (j : json) : res pval :=
    match u with
    | UId => Ok (lift j)
    | UEnum e => enum_of e j
    | UObj c => sub c j
    end.
  (** dap/_messages.py:263-267: lists are unpacked element-wise *)
  Definition unpack_field (u : unpacker) (j : json) : res pval :=
    match j with
    | JArr l => do r <- mapM (apply_unpacker u) l; Ok (PList r)
    | _ => apply_unpacker u j
    end.

  (** what a level of the todo queue holds: a mapping, or the "__types" cache which lives in the
      same dictionary as the top mapping (dap/_messages.py:217-236) *)
  Inductive mapping := Map (m : list (pystr * mentry)) | Types.

  (** dap/_messages.py:250-267, one (mapping, body) pair: attribute assignments made and nested
      pairs put on the queue.  [top] is true for the class mapping itself (it holds "__types"). *)
  Fixpoint level_items (c : cid) (top : bool) (m : list (pystr * mentry)) (items : list (pystr * json))
    : res (list (pystr * pval) * list (mapping * json)) :=
    match items with
    | [] => Ok ([], [])
    | (k, v) :: r =>
      let rest := level_items c top m r in
      match v with
      | JNull => rest
      | _ =>
        if top && eqb k (s "__types") then do (a, q) <- rest; Ok (a, (Types, v) :: q)
        else match dget m k with
             | None => rest
             | Some (MN m') => do (a, q) <- rest; Ok (a, (Map m', v) :: q)
             | Some (MF f) =>
               match find_field c f with
               | None => Err TypeError
               | Some fd => do x <- unpack_field (funp fd) v; do (a, q) <- rest; Ok ((f, x) :: a, q)
               end
             end
      end
    end.

  (** body.items(): AttributeError when the body is not an object *)
  Definition items_of (j : json) : res (list (pystr * json)) :=
    match j with JObj d => Ok d | _ => Err AttributeError end.

  (** pair (mapping, body): for the "__types" dictionary any known attribute name with a non-null value
      makes the tuple unpacking at dap/_messages.py:259 fail with TypeError *)
  Definition do_pair (c : cid) (top : bool) (p : mapping * json)
    : res (list (pystr * pval) * list (mapping * json)) :=
    do items <- items_of (snd p);
    match fst p with
    | Map m => level_items c top m items
    | Types =>
      if existsb (fun kv => match snd kv with JNull => false | _ => match find_field c (fst kv) with Some _ => true | None => false end end) items
      then Err TypeError else Ok ([], [])
    end.

  (** the while loop over the queue, level by level; [f] bounds the nesting of the dap mapping *)
  Fixpoint run_queue (f : nat) (c : cid) (top : bool) (q : list (mapping * json)) : res (list (pystr * pval)) :=
    match q with
    | [] => Ok []
    | _ =>
      match f with
      | O => Err EFuel
      | S f' =>
        do rs <- mapM (do_pair c top) q;
        do rest <- run_queue f' c false (flat_map snd rs);
        Ok (flat_map fst rs ++ rest)
      end
    end.

  (** last assignment wins *)
  Definition last_assign (a : list (pystr * pval)) (f : pystr) : option pval := dget (rev a) f.

  (** cls( **kwargs ) then setattr of the init=False ones (dap/_messages.py:269-273) *)
  Definition build (c : cid) (a : list (pystr * pval)) : res pval :=
    do attrs <- mapM (fun fd =>
      match last_assign a (fname fd) with
      | Some v => Ok (fname fd, v)
      | None => match fdef fd with FDef v => Ok (fname fd, v) | FReq => Err TypeError | FUnset => Err AttributeError end
      end) (fields c);
    Ok (PObj c attrs).

  (** dap/_messages.py:213-273 default_unpack *)
  Definition default_unpack (c : cid) (j : json) : res pval :=
    do a <- run_queue 8 c true [(Map (dapmap c), j)];
    build c a.

  (** dap/_requests.py:44-54 AttachRequest.unpack, :260-272 LaunchRequest.unpack *)
  Definition getitem (d : list (pystr * json)) (k : pystr) : res json :=
    match dget d k with Some v => Ok v | None => Err KeyError end.
  Definition pop_default (d : list (pystr * json)) (k : pystr) (dv : json) : json * list (pystr * json) :=
    (match dget d k with Some v => v | None => dv end, ddel d k).
  Definition attach_unpack (j : json) : res pval :=
    match j with
    | JObj d =>
      do args <- getitem d (s "arguments");
      match args with
      | JObj a =>
        let '(restart, a1) := pop_default a (s "__restart") JNull in
        do seq <- getitem d (s "seq");
        build C_AttachRequest [(s "arguments", lift (JObj a1)); (s "restart", lift restart); (s "seq", lift seq)]
      | JArr _ => Err TypeError
      | _ => Err AttributeError
      end
    | _ => Err TypeError
    end.
  Definition launch_unpack (j : json) : res pval :=
    match j with
    | JObj d =>
      do args <- getitem d (s "arguments");
      match args with
      | JObj a =>
        let '(no_debug, a1) := pop_default a (s "noDebug") (JBool false) in
        let '(restart, a2) := pop_default a1 (s "__restart") JNull in
        do seq <- getitem d (s "seq");
        build C_LaunchRequest [(s "arguments", lift (JObj a2)); (s "no_debug", lift no_debug); (s "restart", lift restart); (s "seq", lift seq)]
      | JArr _ => Err TypeError
      | _ => Err AttributeError
      end
    | _ => Err TypeError
    end.

  Definition unpack1 (c : cid) (j : json) : res pval :=
    match c with
    | C_AttachRequest => attach_unpack j
    | C_LaunchRequest => launch_unpack j
    | _ => default_unpack c j
    end.
End Unpack.

(** cls.unpack(data); the fuel bounds the nesting depth of the JSON value *)
Fixpoint unpack_obj (f : nat) (c : cid) (j : json) : res pval :=
  match f with
  | O => Err EFuel
  | S f' => unpack1 (unpack_obj f') c j
  end.

(** nesting depth of a JSON value *)
Fixpoint jdepth (j : json) : nat :=
  match j with
  | JArr l => S (fold_right (fun x n => Nat.max (jdepth x) n) 0 l)
  | JObj d => S (fold_right (fun kv n => Nat.max (jdepth (snd kv)) n) 0 d)
  | _ => 0
  end.

Definition cls_unpack (c : cid) (j : json) : res pval := unpack_obj (S (jdepth j)) c j.

(** truth value of JSON data in Python *)
Definition truthy (j : json) : bool :=
  match j with
  | JNull => false | JBool b => b | JInt z => negb (Z.eqb z 0) | JStr t => match t with [] => false | _ => true end
  | JArr l => match l with [] => false | _ => true end
  | JObj d => match d with [] => false | _ => true end
  end.

(** registry.get(key): unhashable keys raise TypeError, other non-strings are not found *)
Definition reg_get {V} (r : list (pystr * V)) (j : json) : res (option V) :=
  match j with
  | JStr t => Ok (dget r t)
  | JArr _ | JObj _ => Err TypeError
  | _ => Ok None
  end.
Inductive mtype := MReq | MResp | MEvt.
Definition registry : list (pystr * mtype) := [(s "event", MEvt); (s "request", MReq); (s "response", MResp)].

(** dap/_messages.py:286-335 ProtocolMessage.unpack *)
Definition unpack_msg (j : json) : res pval :=
  match j with
  | JObj d =>
    do ty <- getitem d (s "type");
    do reg <- reg_get registry ty;
    match reg with
    | None => Err ValueError
    | Some MReq =>
      do cmd <- getitem d (s "command");
      do u <- reg_get reg_request cmd;
      match u with None => Err ValueError | Some c => cls_unpack c j end
    | Some MResp =>
      do cmd <- getitem d (s "command");
      do succ <- getitem d (s "success");
      do u <- reg_get reg_response (if truthy succ then cmd else JStr (s "error"));
      match u with None => Err ValueError | Some c => cls_unpack c j end
    | Some MEvt =>
      do ev <- getitem d (s "event");
      do u <- reg_get reg_event ev;
      match u with None => Err ValueError | Some c => cls_unpack c j end
    end
  | _ => Err TypeError
  end.
