(** Line table and location computation. *)
From Verif Require Import PyBase PyDict DbgTypes BpModel BpSpec.
From Coq Require Import ZifyBool ZifyNat ZifyN.
Set Implicit Arguments.
Local Open Scope Z_scope.

Definition lk (h : list (Z * Z)) (l : Z) : option Z :=
  match find (fun p => fst p =? l) (rev h) with
  | Some p => Some (snd p)
  | None => if l =? 0 then Some 0 else None
  end.

Lemma lk_snoc h l t x : lk (h ++ [(l, t)]) x = if l =? x then Some t else lk h x.
Proof. unfold lk. rewrite rev_app_distr. cbn. destruct (l =? x); reflexivity. Qed.

Lemma starts_lk h l t : starts h l t <-> lk h l = Some t.
Proof.
  split.
  - induction 1 as [|h l t|h l t l' t' H IH N].
    + reflexivity.
    + rewrite lk_snoc, Z.eqb_refl. reflexivity.
    + rewrite lk_snoc. destruct (l =? l') eqn:E; [lia|exact IH].
  - revert l t. induction h as [|(a, b) h IH] using rev_ind; intros l t.
    + unfold lk. cbn. destruct (l =? 0) eqn:E; [|discriminate]. intros H; injection H as <-.
      apply Z.eqb_eq in E; subst. constructor.
    + rewrite lk_snoc. destruct (a =? l) eqn:E.
      * intros H; injection H as <-. apply Z.eqb_eq in E; subst. constructor.
      * intros H. constructor; [now apply IH|lia].
Qed.
Lemma boundary_lk h l : boundary h l <-> lk h l <> None.
Proof.
  unfold boundary. split.
  - intros (t & H). apply starts_lk in H. congruence.
  - destruct (lk h l) as [t|] eqn:E; [|congruence]. intros _. exists t. now apply starts_lk.
Qed.

Definition lenZ {A} (l : list A) := Z.of_nat (length l).

Record rep (fl : list (option Z)) (h : list (Z * Z)) : Prop := {
  rep_get : forall i, 0 <= i < lenZ fl -> nth_error fl (Z.to_nat i) = Some (lk h i);
  rep_in : forall i, lk h i <> None -> 0 <= i < lenZ fl;
  rep_last : lk h (lenZ fl - 1) <> None }.

Lemma rep_pos fl h : rep fl h -> 0 < lenZ fl.
Proof.
  intros R. enough (H : lk h 0 <> None) by (apply (rep_in R) in H; lia).
  unfold lk. destruct (find _ _); discriminate.
Qed.
Lemma rep_init : rep [Some 0] [].
Proof.
  split; unfold lenZ; cbn [length].
  - intros i Hi. assert (i = 0) by lia. subst. reflexivity.
  - intros i. unfold lk; cbn. destruct (i =? 0) eqn:E; [lia|congruence].
  - cbn. discriminate.
Qed.

Lemma py_index_nn {A} (l : list A) i : 0 <= i -> py_index l i = nth_error l (Z.to_nat i).
Proof. intros H. unfold py_index. destruct (i <? 0) eqn:E; [lia|reflexivity]. Qed.

Lemma set_nth_ok {A} (l : list A) i v : (i < length l)%nat ->
  exists l', set_nth l i v = Some l' /\ length l' = length l /\
             forall j, nth_error l' j = if Nat.eqb i j then Some v else nth_error l j.
Proof.
  revert i; induction l as [|x l IH]; intros i Hi; cbn in Hi; [lia|].
  destruct i as [|i]; cbn.
  - eexists; split; [reflexivity|split; [reflexivity|]]. intros [|j]; reflexivity.
  - destruct (IH i) as (l' & E & Hl & Hn); [lia|]. rewrite E.
    eexists; split; [reflexivity|split; [cbn; lia|]]. intros [|j]; cbn; [reflexivity|apply Hn].
Qed.

Lemma nth_error_repeat {A} (x : A) n i : (i < n)%nat -> nth_error (repeat x n) i = Some x.
Proof. revert i; induction n; intros [|i] H; cbn; auto; try lia. apply IHn; lia. Qed.

Lemma register_rep fl h l t : rep fl h -> 0 <= l ->
  exists fl2, py_setitem (fl ++ repeat None (Z.to_nat (1 + l - lenZ fl))) l (Some t) = Some fl2
              /\ rep fl2 (h ++ [(l, t)]).
Proof.
  intros R Hl. set (fl1 := fl ++ _).
  assert (L1 : lenZ fl1 = Z.max (lenZ fl) (1 + l)).
  { unfold lenZ, fl1. rewrite app_length, repeat_length. unfold lenZ. lia. }
  destruct (@set_nth_ok _ fl1 (Z.to_nat l) (Some t)) as (fl2 & E & Hlen & Hn).
  { unfold lenZ in *. lia. }
  exists fl2. split.
  { unfold py_setitem. destruct (l <? 0) eqn:X; [lia|exact E]. }
  assert (L2 : lenZ fl2 = Z.max (lenZ fl) (1 + l)) by (unfold lenZ in *; lia).
  pose proof (rep_pos R) as P.
  split.
  - intros i Hi. rewrite Hn, lk_snoc.
    destruct (Nat.eqb (Z.to_nat l) (Z.to_nat i)) eqn:X; destruct (l =? i) eqn:Y; try lia; auto.
    unfold fl1. destruct (Z_lt_le_dec i (lenZ fl)) as [G|G].
    + rewrite nth_error_app1 by (unfold lenZ in *; lia). apply (rep_get R); lia.
    + rewrite nth_error_app2 by (unfold lenZ in *; lia).
      rewrite nth_error_repeat by (unfold lenZ in *; lia). f_equal.
      destruct (lk h i) eqn:Z; [|reflexivity].
      assert (K : lk h i <> None) by congruence. apply (rep_in R) in K. lia.
  - intros i. rewrite lk_snoc. destruct (l =? i) eqn:Y; [lia|]. intros K. apply (rep_in R) in K. lia.
  - rewrite lk_snoc. destruct (l =? lenZ fl2 - 1) eqn:Y; [discriminate|].
    replace (lenZ fl2 - 1) with (lenZ fl - 1) by lia. apply (rep_last R).
Qed.

Lemma walk_back_spec fl h fuel st : rep fl h -> 0 <= st < lenZ fl -> (Z.to_nat st < fuel)%nat ->
  exists first t, walk_back fuel fl st = Ok (first, t) /\ 0 <= first <= st /\ lk h first = Some t /\
                  forall x, first < x <= st -> lk h x = None.
Proof.
  intros R. revert st; induction fuel as [|fuel IH]; intros st Hs Hf; [lia|].
  cbn [walk_back]. rewrite py_index_nn by lia. rewrite (rep_get R) by lia.
  destruct (lk h st) as [t|] eqn:E.
  - exists st, t. repeat split; auto; try lia.
  - assert (st <> 0).
    { intros ->. unfold lk in E. destruct (find _ _); discriminate. }
    destruct (IH (st - 1)) as (first & t & E1 & H1 & H2 & H3); [lia|lia|].
    exists first, t. repeat split; auto; try lia.
    intros x Hx. destruct (Z.eq_dec x st) as [->|]; [exact E|apply H3; lia].
Qed.
Lemma walk_fwd_spec fl h fuel e : rep fl h -> 0 <= e <= lenZ fl -> (Z.to_nat (lenZ fl - e) < fuel)%nat ->
  exists e', walk_fwd fuel fl e = Ok e' /\ e <= e' <= lenZ fl /\ (forall x, e <= x < e' -> lk h x = None) /\
             (e' < lenZ fl -> lk h e' <> None).
Proof.
  intros R. revert e; induction fuel as [|fuel IH]; intros e He Hf; [lia|].
  cbn [walk_fwd]. fold (lenZ fl). destruct (e <? lenZ fl) eqn:L.
  - rewrite py_index_nn by lia. rewrite (rep_get R) by lia.
    destruct (lk h e) as [t|] eqn:E.
    + exists e. split; [reflexivity|]. split; [lia|]. split; [intros x Hx; lia|congruence].
    + destruct (IH (e + 1)) as (e' & E1 & H1 & H2 & H3); [lia|lia|].
      exists e'. repeat split; auto; try lia.
      intros x Hx. destruct (Z.eq_dec x e) as [->|]; [exact E|apply H2; lia].
  - exists e. split; [reflexivity|]. split; [lia|]. split; intros; lia.
Qed.

Lemma calculate_ok fl h id src q : rep fl h -> 0 <= q ->
  exists b, calculate id src q fl = Ok b /\ located h q b /\ bp_id b = id /\ bp_source b = src.
Proof.
  intros R Hq. pose proof (rep_pos R) as P. unfold calculate. fold (lenZ fl).
  set (st := Z.min q (lenZ fl - 1)).
  destruct (@walk_back_spec fl h (S (Z.to_nat (st + lenZ fl + 1))) st R) as (first & t & E1 & A1 & A2 & A3);
    [lia|lia|].
  rewrite E1. cbn [bind].
  destruct (@walk_fwd_spec fl h (S (Z.to_nat (lenZ fl - (st + 1)))) (st + 1) R) as (e & E2 & B1 & B2 & B3);
    [lia|lia|].
  rewrite E2. cbn [bind fst snd]. eexists. split; [reflexivity|]. split; [|split; reflexivity].
  exists first, (Z.min (e - 1) (lenZ fl)), t. cbn [bp_line bp_end bp_verified].
  split; [|split; [reflexivity|split; [reflexivity|lia]]].
  split; [now apply starts_lk|]. split; [lia|]. split.
  - intros x Hb Hx. apply boundary_lk in Hb.
    destruct (Z_le_gt_dec x first); auto. exfalso. apply Hb. apply A3.
    apply (rep_in R) in Hb. lia.
  - destruct (Z_lt_le_dec e (lenZ fl)) as [G|G].
    + left. exists e. repeat split; try lia.
      * apply boundary_lk. auto.
      * intros x Hb Hx. apply boundary_lk in Hb.
        destruct (Z_le_gt_dec e x); auto. exfalso. apply Hb. apply B2.
        pose proof (rep_in R _ Hb). lia.
    + right.
      assert (st = lenZ fl - 1).
      { destruct (Z.eq_dec st (lenZ fl - 1)); auto. exfalso.
        apply (rep_last R). apply B2. lia. }
      assert (first = lenZ fl - 1).
      { destruct (Z.eq_dec first (lenZ fl - 1)); auto. exfalso.
        apply (rep_last R). apply A3. lia. }
      split; [|lia].
      intros x Hb. apply boundary_lk in Hb. apply (rep_in R) in Hb. lia.
Qed.

Lemma located_fun h h' q b b' : (forall l t, starts h l t <-> starts h' l t) ->
  located h q b -> located h' q b' ->
  bp_verified b = bp_verified b' /\ bp_line b = bp_line b' /\ bp_end b = bp_end b'.
Proof.
  intros EQ (f & l & t & (S1 & A1 & A2 & A3) & L1 & E1 & V1) (f' & l' & t' & (S2 & B1 & B2 & B3) & L2 & E2 & V2).
  assert (BQ : forall x, boundary h x <-> boundary h' x).
  { intros x. split; intros (y & Hy); exists y; now apply EQ. }
  assert (f = f').
  { apply Z.le_antisymm.
    - apply B2; auto. apply BQ. now exists t.
    - apply A2; auto. apply BQ. now exists t'. }
  subst f'. apply EQ in S1.
  assert (t = t').
  { apply starts_lk in S1. apply starts_lk in S2. congruence. }
  subst t'.
  assert (l = l').
  { destruct A3 as [(n & N1 & N2 & N3 & N4)|(N1 & N2)], B3 as [(m & M1 & M2 & M3 & M4)|(M1 & M2)].
    - assert (n = m) by (apply Z.le_antisymm; [apply N4; [now apply BQ|auto]|apply M4; [now apply BQ|auto]]).
      lia.
    - exfalso. apply BQ in N1. apply M1 in N1. lia.
    - exfalso. apply BQ in M1. apply N1 in M1. lia.
    - congruence. }
  subst l'. rewrite L1, L2, E1, E2. split; [|auto].
  destruct (bp_verified b), (bp_verified b'); auto; exfalso.
  - destruct V1 as [V1 _]. specialize (V1 eq_refl). apply V2 in V1. congruence.
  - destruct V2 as [V2 _]. specialize (V2 eq_refl). apply V1 in V2. congruence.
Qed.

Lemma located_match h q b L : located h q b -> boundary h L ->
  ((match bp_line b with None => true | Some l => l <=? L end
    && match bp_end b with None => true | Some e => e >=? L end) = true
   <-> set_in_region_at h L q).
Proof.
  intros (f & l & t & (S1 & A1 & A2 & A3) & L1 & E1 & V1) HL. rewrite L1, E1.
  unfold set_in_region_at. rewrite andb_true_iff.
  assert (Bf : boundary h f) by (now exists t).
  split.
  - intros (H1 & H2).
    assert (L = f).
    { destruct A3 as [(n & N1 & N2 & N3 & N4)|(N1 & N2)]; [|lia].
      assert (L <= q) by (destruct (Z_le_gt_dec L q); auto; specialize (N4 L HL); lia).
      specialize (A2 L HL). lia. }
    subst L. split; [lia|]. auto.
  - intros (H1 & H2). assert (L = f).
    { apply Z.le_antisymm; [apply A2; auto|apply H2; auto]. }
    subst L. destruct A3 as [(n & N1 & N2 & N3 & N4)|(N1 & N2)]; lia.
Qed.
