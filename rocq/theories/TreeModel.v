(** plugin_utils/_breakpoints.py:35-37, 101-169: finding the stop places of plays. *)
From Verif Require Import PyBase PyDict Digits DbgTypes BpModel.
Set Implicit Arguments.
Local Open Scope N_scope.

(** Ansible's objects: a task, or a Block with its block, rescue and always sections; the
    text is what get_path() returns ("" if unknown). *)
Inductive item :=
| ITask (path : pystr)
| IBlock (path : pystr) (block rescue always : list item).
Record play := mkPlay { pl_path : pystr; pl_compiled : list item; pl_handlers : list item; pl_roles : list (list item) }.

(** text.rsplit(":", 1): None if there is no colon *)
Fixpoint rsplit_colon (l : pystr) : option (pystr * pystr) :=
  match l with
  | [] => None
  | c :: r => match rsplit_colon r with
              | Some (a, b) => Some (c :: a, b)
              | None => if c =? 58 then Some ([], r) else None
              end
  end.
(** 35-37 _split_task_path; int() of something else than decimal digits is not modelled *)
Definition split_task_path (p : pystr) : res (pystr * Z) :=
  match rsplit_colon p with
  | None => Err IndexError
  | Some (a, b) => if forallb is_digit b && negb (eqb b []) then Ok (a, Z.of_N (val_digits b)) else Err EUnmodelled
  end.
Definition eff := Dbg -> Dbg * res unit.
Definition ret : eff := fun d => (d, Ok tt).
Definition andthen (a b : eff) : eff := fun d => match a d with (d', Ok _) => b d' | (d', Err e) => (d', Err e) end.
(** register_path_breakpoint at a path text, if there is one *)
Definition reg_path (p : pystr) (typ : Z) : eff := fun d =>
  match split_task_path p with Err e => (d, Err e) | Ok (path, line) => register_path_breakpoint path line typ d end.
Definition reg_if (p : pystr) (typ : Z) : eff := if eqb p [] then ret else reg_path p typ.
(** 116-142, one element of the lists: a Block or a task *)
Fixpoint reg_item (x : item) : eff :=
  match x with
  | ITask p => reg_if p 1
  | IBlock p b r a =>
    let fix each (l : list item) : eff := match l with [] => ret | x :: l => andthen (reg_item x) (each l) end in
    andthen (reg_if p 0) (andthen (each b) (andthen (each r) (each a)))
  end.
(** 101-142 register_block_breakpoints *)
Definition register_block_breakpoints (l : list item) : eff := fold_right (fun x e => andthen (reg_item x) e) ret l.
(** 145-169 register_play_breakpoints *)
Definition register_play_breakpoints (l : list play) : eff :=
  fold_right (fun p e => andthen (reg_path (pl_path p) 1) (andthen (register_block_breakpoints (pl_compiled p ++ pl_handlers p ++ concat (pl_roles p))) e)) ret l.
