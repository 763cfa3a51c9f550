(** Shared Python-level vocabulary: strings as code points, bytes, exceptions as
    values, slices and prefix tests.  This file models the Python builtins the
    ansibug sources use; it models no ansibug function itself. *)
From Coq Require Export String Ascii.
From Coq Require Export List Arith NArith ZArith Lia Bool.
Export ListNotations.
Set Implicit Arguments.

(** Python [str]: list of code points; Python [bytes]: list of byte values. *)
Notation pystr := (list N).
Notation bytes := (list N).

(** Literal notation helper: [s "abc"] is the Python string "abc". *)
Fixpoint s (x : String.string) : list N :=
  match x with
  | String.EmptyString => []
  | String.String a r => Ascii.N_of_ascii a :: s r
  end.
Arguments s x%string_scope : simpl never.

(** Python exceptions that occur in the modelled code, as values.  [EUnmodelled]
    marks an input on which the real code takes a path that is outside the model. *)
Inductive exn :=
| ValueError | KeyError | TypeError | AttributeError | IndexError
| NotImplementedError | OverflowError | RuntimeError | OSError | SSLError | TimeoutError
| CancelledError | EOFError | StopIteration | EndStrategy | OtherError
| EUnmodelled | EFuel.

Inductive res (A : Type) := Ok (a : A) | Err (e : exn).
Arguments Ok {A} a.
Arguments Err {A} e.

Definition bind {A B} (r : res A) (f : A -> res B) : res B :=
  match r with Ok a => f a | Err e => Err e end.
Notation "'do' x <- r ; k" := (bind r (fun x => k)) (at level 200, x pattern, r at level 100, k at level 200).

Definition is_ok {A} (r : res A) : bool := match r with Ok _ => true | Err _ => false end.

Definition mapM {A B} (f : A -> res B) : list A -> res (list B) :=
  fix go l :=
  match l with
  | [] => Ok []
  | x :: r => do y <- f x; do ys <- go r; Ok (y :: ys)
  end.

Arguments mapM {A B} f l : simpl never.
Lemma mapM_nil {A B} (f : A -> res B) : mapM f [] = Ok [].
Proof. reflexivity. Qed.
Lemma mapM_cons {A B} (f : A -> res B) x l :
  mapM f (x :: l) = do y <- f x; do ys <- mapM f l; Ok (y :: ys).
Proof. reflexivity. Qed.

Lemma mapM_ok {A B} (f : A -> res B) (g : A -> B) l :
  (forall x, In x l -> f x = Ok (g x)) -> mapM f l = Ok (map g l).
Proof.
  induction l as [|x l IH]; intros H; auto. rewrite mapM_cons.
  rewrite H by (left; auto). cbn [bind]. rewrite IH by (intros; apply H; right; auto). reflexivity.
Qed.
Lemma mapM_length {A B} (f : A -> res B) l r : mapM f l = Ok r -> length r = length l.
Proof.
  revert r; induction l as [|x l IH]; intros r; [cbn; intros H; injection H as <-; auto|].
  rewrite mapM_cons. destruct (f x); cbn; [|discriminate]. destruct (mapM f l); cbn; [|discriminate].
  intros H; injection H as <-. cbn. now rewrite (IH _ eq_refl).
Qed.

(** Boolean equality with a specification. *)
Class Eqb (K : Type) := { eqb : K -> K -> bool; eqb_eq : forall x y, eqb x y = true <-> x = y }.

#[export] Instance Eqb_N : Eqb N := {| eqb := N.eqb; eqb_eq := N.eqb_eq |}.
#[export] Instance Eqb_nat : Eqb nat := {| eqb := Nat.eqb; eqb_eq := Nat.eqb_eq |}.
#[export] Instance Eqb_Z : Eqb Z := {| eqb := Z.eqb; eqb_eq := Z.eqb_eq |}.

Fixpoint list_eqb {A} {E : Eqb A} (x y : list A) : bool :=
  match x, y with
  | [], [] => true
  | a :: x', b :: y' => eqb a b && list_eqb x' y'
  | _, _ => false
  end.
Lemma list_eqb_eq {A} {E : Eqb A} (x y : list A) : list_eqb x y = true <-> x = y.
Proof.
  revert y; induction x as [|a x IH]; intros [|b y]; cbn; try (split; congruence).
  rewrite andb_true_iff, eqb_eq, IH. split; [intros [-> ->]; reflexivity|].
  intros H; injection H as -> ->; auto.
Qed.
#[export] Instance Eqb_list {A} {E : Eqb A} : Eqb (list A) :=
  {| eqb := list_eqb; eqb_eq := list_eqb_eq |}.

Definition option_eqb {A} {E : Eqb A} (x y : option A) : bool :=
  match x, y with Some a, Some b => eqb a b | None, None => true | _, _ => false end.
Lemma option_eqb_eq {A} {E : Eqb A} (x y : option A) : option_eqb x y = true <-> x = y.
Proof.
  destruct x, y; cbn; try (split; congruence).
  rewrite eqb_eq. split; congruence.
Qed.
#[export] Instance Eqb_option {A} {E : Eqb A} : Eqb (option A) :=
  {| eqb := option_eqb; eqb_eq := option_eqb_eq |}.

Section EqbLemmas.
  Context {K : Type} {E : Eqb K}.
  Lemma eqb_refl (x : K) : eqb x x = true.
  Proof. apply eqb_eq; reflexivity. Qed.
  Lemma eqb_neq (x y : K) : eqb x y = false <-> x <> y.
  Proof.
    destruct (eqb x y) eqn:H.
    - apply eqb_eq in H. split; [discriminate|congruence].
    - split; auto. intros _ ->. rewrite eqb_refl in H; discriminate.
  Qed.
  Lemma eqb_sym (x y : K) : eqb x y = eqb y x.
  Proof.
    destruct (eqb y x) eqn:H.
    - apply eqb_eq in H; subst; apply eqb_refl.
    - apply eqb_neq in H. apply eqb_neq. congruence.
  Qed.
  Lemma eqb_spec (x y : K) : reflect (x = y) (eqb x y).
  Proof.
    destruct (eqb x y) eqn:H; constructor.
    - now apply eqb_eq.
    - now apply eqb_neq.
  Qed.
  Lemma eq_dec_of_eqb (x y : K) : {x = y} + {x <> y}.
  Proof.
    destruct (eqb x y) eqn:H; [left; now apply eqb_eq|right; now apply eqb_neq].
  Qed.
  Definition mem (x : K) (l : list K) : bool := existsb (eqb x) l.
  Lemma mem_In x l : mem x l = true <-> In x l.
  Proof.
    unfold mem. rewrite existsb_exists. split.
    - intros (y & Hy & He). apply eqb_eq in He. subst; auto.
    - intros H. exists x. split; auto. apply eqb_refl.
  Qed.
  Lemma mem_not_In x l : mem x l = false <-> ~ In x l.
  Proof.
    destruct (mem x l) eqn:H.
    - apply mem_In in H. split; [discriminate|tauto].
    - split; auto. intros _ HI. apply mem_In in HI. congruence.
  Qed.
End EqbLemmas.

(** [p] is a prefix of [l] : Python [l.startswith(p)]. *)
Fixpoint startswith (l p : list N) {struct p} : bool :=
  match p, l with
  | [], _ => true
  | _ :: _, [] => false
  | a :: p', b :: l' => N.eqb a b && startswith l' p'
  end.

Lemma startswith_spec l p : startswith l p = true <-> exists r, l = p ++ r.
Proof.
  revert l; induction p as [|a p IH]; intros l; cbn.
  - split; [intros _; now exists l|auto].
  - destruct l as [|b l].
    + split; [discriminate|intros (r & H); discriminate].
    + rewrite andb_true_iff, N.eqb_eq, IH. split.
      * intros (-> & r & ->). now exists r.
      * intros (r & H). injection H as -> ->. split; eauto.
Qed.

(** Python slices [l[:n]] and [l[n:]] for any integer [n]: a negative index
    counts from the end, out-of-range indices are clamped. *)
Definition slice_idx {A} (l : list A) (n : Z) : nat :=
  let len := Z.of_nat (length l) in
  Z.to_nat (if (n <? 0)%Z then Z.max 0 (len + n) else Z.min n len).
Definition slice_to {A} (l : list A) (n : Z) : list A := firstn (slice_idx l n) l.
Definition slice_from {A} (l : list A) (n : Z) : list A := skipn (slice_idx l n) l.
(** [l[a:b]] *)
Definition slice {A} (l : list A) (a b : Z) : list A :=
  skipn (slice_idx l a) (firstn (slice_idx l b) l).

(** Python list indexing [l[i]] with negative indices; [None] is IndexError. *)
Definition py_index {A} (l : list A) (i : Z) : option A :=
  let len := Z.of_nat (length l) in
  if (i <? 0)%Z then
    if (i + len <? 0)%Z then None else nth_error l (Z.to_nat (i + len))
  else nth_error l (Z.to_nat i).

Lemma slice_split {A} (l : list A) n : slice_to l n ++ slice_from l n = l.
Proof. apply firstn_skipn. Qed.
