(** What a JSON text is and which value it denotes: the grammar of RFC 8259 (section 2 to 7)
    without fractions and exponents, with the two choices Python's json module makes where the
    RFC leaves them open: a name that occurs twice keeps its last value (at its first place), and
    only a high surrogate escape directly followed by a low one is a pair (others stand for
    themselves).  Stated on lists of code points, with no reference to the model of the decoder. *)
From Verif Require Import PyBase PyDict JsonModel.
Set Implicit Arguments.
Local Open Scope N_scope.

(** RFC 8259 section 2: space, tab, line feed, carriage return *)
Definition white (l : list N) : Prop := Forall (fun c => In c [32; 9; 10; 13]) l.

(** section 6, the integer part: no leading zero *)
Inductive decimal : list N -> N -> Prop :=
| D_one d : 48 <= d <= 57 -> decimal [d] (d - 48)
| D_more ds n d : decimal ds n -> 48 <= d <= 57 -> decimal (ds ++ [d]) (10 * n + (d - 48)).
Definition natural (l : list N) (n : N) : Prop := decimal l n /\ (hd_error l = Some 48 -> l = [48]).
Inductive integer : list N -> Z -> Prop :=
| I_pos l n : natural l n -> integer l (Z.of_N n)
| I_neg l n : natural l n -> integer (45 :: l) (- Z.of_N n).

(** section 7 *)
Inductive hexdigit : N -> N -> Prop :=
| H_dec c : 48 <= c <= 57 -> hexdigit c (c - 48)
| H_low c : 97 <= c <= 102 -> hexdigit c (10 + (c - 97))
| H_up c : 65 <= c <= 70 -> hexdigit c (10 + (c - 65)).
(** backslash u and four digits *)
Inductive uescape : list N -> N -> Prop :=
| U a b c d na nb nc nd : hexdigit a na -> hexdigit b nb -> hexdigit c nc -> hexdigit d nd ->
    uescape [92; 117; a; b; c; d] (na * 4096 + nb * 256 + nc * 16 + nd).
Definition high (u : N) : Prop := 55296 <= u <= 56319.
Definition low (u : N) : Prop := 56320 <= u <= 57343.
Definition pair (hi lo : N) : N := 65536 + (hi - 55296) * 1024 + (lo - 56320).
Definition escapes : list (N * N) := [(34, 34); (92, 92); (47, 47); (98, 8); (102, 12); (110, 10); (114, 13); (116, 9)].
(** the text between the quotes and the string it denotes *)
Inductive chars : list N -> list N -> Prop :=
| S_end : chars [] []
| S_plain c r t : 32 <= c -> c <> 34 -> c <> 92 -> chars r t -> chars (c :: r) (c :: t)
| S_short e c r t : In (e, c) escapes -> chars r t -> chars (92 :: e :: r) (c :: t)
| S_unit raw u r t : uescape raw u -> chars r t ->
    (high u -> forall raw2 lo r2, r = raw2 ++ r2 -> uescape raw2 lo -> ~ low lo) ->
    chars (raw ++ r) (u :: t)
| S_pair raw1 hi raw2 lo r t : uescape raw1 hi -> high hi -> uescape raw2 lo -> low lo -> chars r t ->
    chars (raw1 ++ raw2 ++ r) (pair hi lo :: t).

(** sections 3 to 5 *)
Definition object_of (members : list (pystr * json)) : json := JObj (fold_left (fun d kv => dset d (fst kv) (snd kv)) members []).
Inductive value : list N -> json -> Prop :=
| V_null : value (s "null") JNull
| V_true : value (s "true") (JBool true)
| V_false : value (s "false") (JBool false)
| V_int raw z : integer raw z -> value raw (JInt z)
| V_str raw t : chars raw t -> value ([34] ++ raw ++ [34]) (JStr t)
| V_arr0 w : white w -> value ([91] ++ w ++ [93]) (JArr [])
| V_arr raw l : elements raw l -> value ([91] ++ raw ++ [93]) (JArr l)
| V_obj0 w : white w -> value ([123] ++ w ++ [125]) (JObj [])
| V_obj raw l : members raw l -> value ([123] ++ raw ++ [125]) (object_of l)
with elements : list N -> list json -> Prop :=
| E_last w1 raw v w2 : white w1 -> value raw v -> white w2 -> elements (w1 ++ raw ++ w2) [v]
| E_more w1 raw v w2 rest l : white w1 -> value raw v -> white w2 -> elements rest l ->
    elements (w1 ++ raw ++ w2 ++ [44] ++ rest) (v :: l)
with members : list N -> list (pystr * json) -> Prop :=
| M_last w1 k t w2 w3 raw v w4 : white w1 -> chars k t -> white w2 -> white w3 -> value raw v -> white w4 ->
    members (w1 ++ [34] ++ k ++ [34] ++ w2 ++ [58] ++ w3 ++ raw ++ w4) [(t, v)]
| M_more w1 k t w2 w3 raw v w4 rest l : white w1 -> chars k t -> white w2 -> white w3 -> value raw v -> white w4 ->
    members rest l ->
    members (w1 ++ [34] ++ k ++ [34] ++ w2 ++ [58] ++ w3 ++ raw ++ w4 ++ [44] ++ rest) ((t, v) :: l).
(** section 2: JSON-text = ws value ws *)
Definition json_text (l : list N) (v : json) : Prop :=
  exists w1 raw w2, white w1 /\ value raw v /\ white w2 /\ l = w1 ++ raw ++ w2.

Scheme value_mind := Minimality for value Sort Prop
with elements_mind := Minimality for elements Sort Prop
with members_mind := Minimality for members Sort Prop.
Combined Scheme json_mutind from value_mind, elements_mind, members_mind.
