(** C75: the type shown for a value and whether it can be expanded. *)
From Verif Require Import PyBase VtModel.
Local Open Scope N_scope.

(** Facts about Python's classes: bool derives from int; str and tuple are Sequences; a
    class cannot derive from two of str, int, float and tuple (layout conflict). *)
Definition python_class (c : pyclass) : Prop :=
  (c_bool c = true -> c_int c = true) /\ (c_str c = true -> c_seq c = true) /\ (c_tuple c = true -> c_seq c = true) /\
  (c_str c = true -> c_int c = false /\ c_float c = false /\ c_tuple c = false) /\ (c_int c = true -> c_float c = false /\ c_tuple c = false) /\ (c_float c = true -> c_tuple c = false).
Definition basic (c : pyclass) : Prop := c_str c = true \/ c_int c = true \/ c_float c = true \/ c_tuple c = true.

(** A value of a subclass of a builtin type, as Ansible's tagged types are, has the type
    name of the builtin; a bool is not an int; mappings and sequences of any class are dict
    and list; everything else has its class's name. *)
Theorem C75_type_name : forall c, python_class c ->
  (c_str c = true -> variable_type c = s "str") /\
  (c_bool c = true -> variable_type c = s "bool") /\
  (c_int c = true -> c_bool c = false -> variable_type c = s "int") /\
  (c_float c = true -> variable_type c = s "float") /\
  (c_tuple c = true -> variable_type c = s "tuple") /\
  (~ basic c -> c_map c = true -> variable_type c = s "dict") /\
  (~ basic c -> c_map c = false -> c_seq c = true -> variable_type c = s "list") /\
  (~ basic c -> c_map c = false -> c_seq c = false -> variable_type c = c_name c).
Proof.
  intros [n [] [] [] [] [] [] [] [] []] (H1 & H2 & H3 & H4 & H5 & H6); unfold basic; cbn in *; repeat split; intros; auto; try discriminate;
    try (exfalso; tauto); try (discriminate (H1 eq_refl)); try (destruct (H4 eq_refl) as (? & ? & ?); discriminate); try (destruct (H5 eq_refl); discriminate); try discriminate (H6 eq_refl).
Qed.
(** A value is shown with named children exactly if its type is dict, and with indexed ones
    exactly if it is list or tuple; for values that are not dataclass instances, not numbers
    or tuples registered as mappings, and whose class is not named like those. *)
Definition ordinary (c : pyclass) : Prop :=
  (c_data c = true -> c_type c = true) /\ (c_int c = true \/ c_float c = true -> c_map c = false /\ c_seq c = false) /\ (c_tuple c = true -> c_map c = false) /\
  (c_name c <> s "dict" /\ c_name c <> s "list" /\ c_name c <> s "tuple").
Theorem C75_children_partial : forall c, python_class c -> ordinary c ->
  listed c = after_set c /\
  (listed c = CNamed <-> variable_type c = s "dict") /\
  (listed c = CIndexed <-> (variable_type c = s "list" \/ variable_type c = s "tuple")).
Proof.
  intros [n b1 b2 b3 b4 b5 b6 b7 b8 b9] (H1 & H2 & H3 & H4 & H5 & H6) (O1 & O2 & O3 & O4 & O5 & O6); cbn in *.
  unfold listed, after_set, variable_type, added; cbn.
  destruct b1; [rewrite !Bool.andb_false_r; destruct b8; [rewrite (O1 eq_refl)|]; cbn; repeat split; intros X; try discriminate; destruct X; discriminate|].
  assert (E : (b8 && negb b9 = false)%bool) by (destruct b8; [rewrite (O1 eq_refl)|]; reflexivity).
  destruct b2; [destruct (O2 (or_introl (H1 eq_refl))) as [-> ->]; rewrite E; repeat split; intros X; try discriminate; destruct X; discriminate|].
  destruct b3; [destruct (O2 (or_introl eq_refl)) as [-> ->]; rewrite E; repeat split; intros X; try discriminate; destruct X; discriminate|].
  destruct b4; [destruct (O2 (or_intror eq_refl)) as [-> ->]; rewrite E; repeat split; intros X; try discriminate; destruct X; discriminate|].
  destruct b5; [rewrite (H3 eq_refl), (O3 eq_refl); repeat split; intros X; auto; try discriminate|].
  destruct b6; [repeat split; intros X; auto; try discriminate; destruct X; discriminate|].
  destruct b7; [repeat split; intros X; auto; try discriminate|].
  cbn. rewrite E. repeat split; intros X; try discriminate; try contradiction. destruct X; contradiction.
Qed.
(** Without the restriction it fails: an instance of a dataclass has named children and its
    class's name as type, and after setVariable it has none. *)
Theorem C75_children_refuted : ~ (forall c, python_class c ->
  listed c = after_set c /\ (listed c = CNamed <-> variable_type c = s "dict") /\ (listed c = CIndexed <-> (variable_type c = s "list" \/ variable_type c = s "tuple"))).
Proof.
  intros H. destruct (H (mkClass (s "Point") false false false false false false false true false)) as (X & _).
  - repeat split; discriminate.
  - discriminate X.
Qed.
(** AnsibleUnicode, a bool, a namedtuple, a bytes object (a Sequence), HostVars (a Mapping). *)
Example C75_met :
  map variable_type [mkClass (s "AnsibleUnicode") true false false false false false true false false; mkClass (s "bool") false true true false false false false false false;
    mkClass (s "Point") false false false false true false true false false; mkClass (s "bytes") false false false false false false true false false;
    mkClass (s "HostVars") false false false false false true false false false] = [s "str"; s "bool"; s "tuple"; s "list"; s "dict"] /\
  python_class (mkClass (s "AnsibleUnicode") true false false false false false true false false) /\ ordinary (mkClass (s "AnsibleUnicode") true false false false false false true false false).
Proof. repeat split; try discriminate; intros; repeat match goal with H : _ \/ _ |- _ => destruct H end; discriminate. Qed.
Print Assumptions C75_type_name.
Print Assumptions C75_children_partial.
Print Assumptions C75_children_refuted.
