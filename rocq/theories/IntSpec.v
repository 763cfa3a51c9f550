(** Specification vocabulary: the byte strings Python's int() accepts, and their values.
    Blanks around, one sign, decimal digits with single underscores between two digits. *)
From Verif Require Import PyBase.
Local Open Scope N_scope.
Definition dec (c : N) : Prop := 48 <= c <= 57.
Definition blank (c : N) : Prop := c = 32 \/ 9 <= c <= 13.
Inductive numeral : list N -> Prop :=
| num_one c : dec c -> numeral [c]
| num_more c l : dec c -> numeral l -> numeral (c :: l)
| num_us c l : dec c -> numeral l -> numeral (c :: 95 :: l).
Definition value (l : list N) : N := fold_left (fun a c => a * 10 + (c - 48)) (filter (fun c => negb (c =? 95)) l) 0.
Definition int_literal (v : list N) (z : Z) : Prop :=
  exists w1 sg ds w2, v = w1 ++ sg ++ ds ++ w2 /\ Forall blank w1 /\ Forall blank w2 /\ numeral ds /\
    (((sg = [] \/ sg = [43]) /\ z = Z.of_N (value ds)) \/ (sg = [45] /\ z = (- Z.of_N (value ds))%Z)).
