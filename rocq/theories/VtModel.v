(** The type and the children shown for a value: plugin_utils/_variables.py:10-40
    get_canonicalized_variable_type, strategy/debug.py:885-890, 929-933 and 991-995.
    A value's class is given by its __name__ and by what isinstance says of it; virtual
    subclasses (abc.register) and __instancecheck__ are part of that. *)
From Verif Require Import PyBase.
Local Open Scope N_scope.

Record pyclass := mkClass {
  c_name : pystr; c_str : bool; c_bool : bool; c_int : bool; c_float : bool; c_tuple : bool;
  c_map : bool; c_seq : bool; (* collections.abc.Mapping, collections.abc.Sequence *)
  c_data : bool; c_type : bool (* dataclasses.is_dataclass; the value is itself a class *) }.

(** _variables.py:25-40 *)
Definition variable_type (c : pyclass) : pystr :=
  if c_str c then s "str" else if c_bool c then s "bool" else if c_int c then s "int" else if c_float c then s "float"
  else if c_tuple c then s "tuple" else if c_map c then s "dict" else if c_seq c then s "list" else c_name c.

(** What _add_variable makes of it: strategy/debug.py:991-995. *)
Inductive children := CNone | CNamed | CIndexed.
Definition added (c : pyclass) : children := if c_map c then CNamed else CIndexed.
(** strategy/debug.py:885-890 (variables): asdict gives a dict. *)
Definition listed (c : pyclass) : children :=
  if (c_map c || c_seq c) && negb (c_str c) then added c
  else if c_data c && negb (c_type c) then CNamed else CNone.
(** strategy/debug.py:929-933 (setVariable) *)
Definition after_set (c : pyclass) : children := if (c_map c || c_seq c) && negb (c_str c) then added c else CNone.
