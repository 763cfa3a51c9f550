(** Specification vocabulary: the JSON values Python takes as false. *)
From Verif Require Import PyBase JsonModel.
Definition falsy (j : json) : Prop := j = JNull \/ j = JBool false \/ j = JInt 0 \/ j = JStr [] \/ j = JArr [] \/ j = JObj [].
