(** Python dictionaries as insertion-ordered association lists.
    [dset] updates in place when the key exists and appends otherwise, which is
    exactly the iteration-order behaviour of CPython dictionaries. *)
From Verif Require Import PyBase.
From Coq Require Import Permutation.
Set Implicit Arguments.

Notation dict K V := (list (K * V)) (only parsing).

Section Dict.
  Context {K V : Type} {E : Eqb K}.
  Implicit Types (d : dict K V) (k : K) (v : V).

  (** [d.get(k)] *)
  Fixpoint dget d k : option V :=
    match d with
    | [] => None
    | (k', v) :: r => if eqb k' k then Some v else dget r k
    end.
  (** [k in d] *)
  Definition dhas d k : bool := match dget d k with Some _ => true | None => false end.
  (** [d[k] = v] *)
  Fixpoint dset d k v : dict K V :=
    match d with
    | [] => [(k, v)]
    | (k', v') :: r => if eqb k' k then (k', v) :: r else (k', v') :: dset r k v
    end.
  (** [d.pop(k, None)] / [del d[k]] on the dictionary part *)
  Fixpoint ddel d k : dict K V :=
    match d with
    | [] => []
    | (k', v') :: r => if eqb k' k then r else (k', v') :: ddel r k
    end.
  Definition dkeys d : list K := map fst d.
  Definition dvals d : list V := map snd d.
  (** [d1 | d2] and [d1.update(d2)] *)
  Definition dmerge d (d2 : dict K V) : dict K V :=
    fold_left (fun a kv => dset a (fst kv) (snd kv)) d2 d.

  Lemma dget_dset_same d k v : dget (dset d k v) k = Some v.
  Proof.
    induction d as [|[k' v'] d IH]; cbn.
    - now rewrite eqb_refl.
    - destruct (eqb k' k) eqn:He; cbn; rewrite He; auto.
  Qed.
  Lemma dget_dset_other d k k' v : k' <> k -> dget (dset d k v) k' = dget d k'.
  Proof.
    intros Hn. induction d as [|[k0 v0] d IH]; cbn.
    - destruct (eqb_spec k k'); congruence.
    - destruct (eqb_spec k0 k); subst; cbn.
      + destruct (eqb_spec k k'); congruence.
      + destruct (eqb_spec k0 k'); auto.
  Qed.
  Lemma dget_dset d k k' v : dget (dset d k v) k' = if eqb k k' then Some v else dget d k'.
  Proof.
    destruct (eqb_spec k k'); subst; [apply dget_dset_same|apply dget_dset_other; congruence].
  Qed.
  Lemma dget_In d k v : dget d k = Some v -> In (k, v) d.
  Proof.
    induction d as [|[k' v'] d IH]; cbn; [discriminate|].
    destruct (eqb_spec k' k); subst; [|auto]. intros H; injection H as ->; auto.
  Qed.
  Lemma dget_Some_key d k v : dget d k = Some v -> In k (dkeys d).
  Proof. intros H. apply dget_In in H. apply (in_map fst) in H. exact H. Qed.
  Lemma dget_None d k : dget d k = None <-> ~ In k (dkeys d).
  Proof.
    induction d as [|[k' v'] d IH]; cbn; [tauto|].
    destruct (eqb_spec k' k); subst.
    - split; [discriminate|]. intros H; exfalso; auto.
    - rewrite IH. intuition congruence.
  Qed.
  Lemma dget_key_ex d k : In k (dkeys d) -> exists v, dget d k = Some v.
  Proof.
    intros H. destruct (dget d k) eqn:Hd; eauto. apply dget_None in Hd; tauto.
  Qed.
  Lemma In_dget d k v : NoDup (dkeys d) -> In (k, v) d -> dget d k = Some v.
  Proof.
    induction d as [|[k' v'] d IH]; cbn; [tauto|]. intros Hnd Hin. inversion Hnd; subst.
    destruct Hin as [Heq|Hin].
    - injection Heq as -> ->. now rewrite eqb_refl.
    - destruct (eqb_spec k' k); subst; auto.
      exfalso. apply (in_map fst) in Hin. auto.
  Qed.
  Lemma dhas_In d k : dhas d k = true <-> In k (dkeys d).
  Proof.
    unfold dhas. destruct (dget d k) eqn:H.
    - split; auto. intros _. eapply dget_Some_key; eauto.
    - apply dget_None in H. split; [discriminate|tauto].
  Qed.
  Lemma dhas_not_In d k : dhas d k = false <-> ~ In k (dkeys d).
  Proof.
    unfold dhas. destruct (dget d k) eqn:H.
    - split; [discriminate|]. intros Hn. exfalso; apply Hn. eapply dget_Some_key; eauto.
    - apply dget_None in H. tauto.
  Qed.

  Lemma dkeys_dset_in d k v : In k (dkeys d) -> dkeys (dset d k v) = dkeys d.
  Proof.
    induction d as [|[k' v'] d IH]; cbn; [tauto|].
    destruct (eqb_spec k' k); subst; cbn; auto.
    intros [|H]; [congruence|]. unfold dkeys in *. now rewrite IH.
  Qed.
  Lemma dset_fresh d k v : ~ In k (dkeys d) -> dset d k v = d ++ [(k, v)].
  Proof.
    induction d as [|[k' v'] d IH]; cbn; auto.
    intros H. destruct (eqb_spec k' k); subst; [exfalso; auto|].
    rewrite IH; auto.
  Qed.
  Lemma In_dkeys_dset d k v k' : In k' (dkeys (dset d k v)) <-> k' = k \/ In k' (dkeys d).
  Proof.
    induction d as [|[k0 v0] d IH]; cbn; [intuition congruence|].
    destruct (eqb_spec k0 k); subst; cbn; [intuition congruence|].
    rewrite IH. intuition congruence.
  Qed.
  Lemma NoDup_dset d k v : NoDup (dkeys d) -> NoDup (dkeys (dset d k v)).
  Proof.
    induction d as [|[k0 v0] d IH]; cbn; intros Hnd.
    - constructor; auto.
    - inversion Hnd; subst. destruct (eqb_spec k0 k); subst; cbn; [auto|].
      constructor; auto. unfold dkeys in *. fold (dkeys (dset d k v)). rewrite In_dkeys_dset. intros [|]; [congruence|contradiction].
  Qed.
  Lemma In_dset d k v p : In p (dset d k v) -> p = (k, v) \/ In p d.
  Proof.
    induction d as [|[k0 v0] d IH]; cbn; [intuition auto|].
    destruct (eqb_spec k0 k); subst; cbn; [intuition auto|].
    intros [H|H]; auto. destruct (IH H); auto.
  Qed.

  Lemma dget_ddel_other d k k' : k' <> k -> dget (ddel d k) k' = dget d k'.
  Proof.
    intros Hn. induction d as [|[k0 v0] d IH]; cbn; auto.
    destruct (eqb_spec k0 k); subst.
    - destruct (eqb_spec k k'); congruence.
    - cbn. now rewrite IH.
  Qed.
  Lemma dget_ddel_same d k : NoDup (dkeys d) -> dget (ddel d k) k = None.
  Proof.
    induction d as [|[k0 v0] d IH]; cbn; auto. intros Hnd; inversion Hnd; subst.
    destruct (eqb_spec k0 k); subst.
    - now apply dget_None.
    - cbn. destruct (eqb_spec k0 k); [congruence|auto].
  Qed.
  Lemma In_ddel d k p : In p (ddel d k) -> In p d.
  Proof.
    induction d as [|[k0 v0] d IH]; cbn; auto.
    destruct (eqb_spec k0 k); subst; cbn; intuition auto.
  Qed.
  Lemma In_dkeys_ddel d k k' : NoDup (dkeys d) -> (In k' (dkeys (ddel d k)) <-> k' <> k /\ In k' (dkeys d)).
  Proof.
    induction d as [|[k0 v0] d IH]; cbn; intros Hnd; [tauto|]. inversion Hnd; subst.
    destruct (eqb_spec k0 k); subst.
    - split; [|intuition congruence]. intros H. split; auto. intros ->; auto.
    - cbn. rewrite IH by auto. intuition congruence.
  Qed.
  Lemma NoDup_ddel d k : NoDup (dkeys d) -> NoDup (dkeys (ddel d k)).
  Proof.
    induction d as [|[k0 v0] d IH]; cbn; auto. intros Hnd; inversion Hnd; subst.
    destruct (eqb_spec k0 k); subst; auto. cbn. constructor; auto.
    intros H. apply in_map_iff in H. destruct H as ([k1 v1] & Hk & Hin). cbn in Hk; subst.
    apply In_ddel in Hin. apply (in_map fst) in Hin. auto.
  Qed.
  Lemma ddel_notin d k : ~ In k (dkeys d) -> ddel d k = d.
  Proof.
    induction d as [|[k0 v0] d IH]; cbn; auto. intros H.
    destruct (eqb_spec k0 k); subst; [tauto|]. rewrite IH; tauto.
  Qed.

  Lemma dget_app d d2 k : dget (d ++ d2) k = match dget d k with Some v => Some v | None => dget d2 k end.
  Proof.
    induction d as [|[k0 v0] d IH]; cbn; auto. destruct (eqb k0 k); auto.
  Qed.
  Lemma dkeys_app d d2 : dkeys (d ++ d2) = dkeys d ++ dkeys d2.
  Proof. apply map_app. Qed.

  Lemma dget_filter_key (f : K -> bool) d k :
    dget (filter (fun kv => f (fst kv)) d) k = if f k then dget d k else None.
  Proof.
    induction d as [|[k0 v0] d IH]; cbn; [now destruct (f k)|].
    destruct (f k0) eqn:Hf; cbn; rewrite IH.
    - destruct (eqb_spec k0 k); subst; [now rewrite Hf|auto].
    - destruct (eqb_spec k0 k); subst; [now rewrite Hf|auto].
  Qed.
  Lemma NoDup_filter_keys (f : K * V -> bool) d : NoDup (dkeys d) -> NoDup (dkeys (filter f d)).
  Proof.
    induction d as [|[k0 v0] d IH]; cbn; auto. intros Hnd; inversion Hnd; subst.
    destruct (f (k0, v0)); cbn; auto. constructor; auto.
    intros H. apply in_map_iff in H. destruct H as ([k1 v1] & Hk & Hin). cbn in Hk; subst.
    apply filter_In in Hin. destruct Hin as [Hin _]. apply (in_map fst) in Hin. auto.
  Qed.

  Lemma dget_dmerge d2 d k : dget (dmerge d d2) k = match dget (rev d2) k with Some v => Some v | None => dget d k end.
  Proof.
    revert d. induction d2 as [|[k0 v0] d2 IH]; intros d; cbn; auto.
    fold (dmerge (dset d k0 v0) d2). rewrite IH, dget_app. cbn. destruct (dget (rev d2) k); auto.
    rewrite dget_dset. destruct (eqb k0 k); auto.
  Qed.
  Lemma NoDup_dmerge d2 d : NoDup (dkeys d) -> NoDup (dkeys (dmerge d d2)).
  Proof.
    revert d. induction d2 as [|[k0 v0] d2 IH]; intros d Hnd; cbn; auto.
    fold (dmerge (dset d k0 v0) d2). apply IH. now apply NoDup_dset.
  Qed.

  Lemma dget_perm d d2 k : NoDup (dkeys d) -> Permutation d d2 -> dget d k = dget d2 k.
  Proof.
    intros Hnd Hp. destruct (dget d k) eqn:H1.
    - symmetry. apply In_dget.
      + eapply Permutation_NoDup; [|exact Hnd]. now apply Permutation_map.
      + eapply Permutation_in; [exact Hp|]. now apply dget_In.
    - symmetry. apply dget_None. apply dget_None in H1. intros H. apply H1.
      eapply Permutation_in; [|exact H]. apply Permutation_map. now symmetry.
  Qed.
End Dict.

Lemma dget_map {K V W} {E : Eqb K} (f : V -> W) (d : dict K V) k :
  dget (map (fun kv => (fst kv, f (snd kv))) d) k = option_map f (dget d k).
Proof.
  induction d as [|[k0 v0] d IH]; cbn; auto. destruct (eqb k0 k); auto.
Qed.
Lemma dkeys_map {K V W} (f : V -> W) (d : dict K V) :
  dkeys (map (fun kv => (fst kv, f (snd kv))) d) = dkeys d.
Proof. unfold dkeys. rewrite map_map. apply map_ext. auto. Qed.
