(** Decimal and hexadecimal digit strings: Python [str(int)], the digit part of
    [int(str)], and ['{:04x}'.format(n)]. *)
From Verif Require Import PyBase.
From Coq Require Import ZifyBool ZifyNat ZifyN.
Ltac Zify.zify_post_hook ::= Z.div_mod_to_equations.
Local Open Scope N_scope.

Definition is_digit (c : N) : bool := (48 <=? c) && (c <=? 57).

Fixpoint digits_fuel (f : nat) (n : N) : list N :=
  match f with
  | O => []
  | S f' => if n <? 10 then [48 + n] else digits_fuel f' (n / 10) ++ [48 + n mod 10]
  end.
(** Python [str(n)] for a non-negative integer. *)
Definition digits (n : N) : list N := digits_fuel (S (N.size_nat n)) n.
(** Python [str(z)]. *)
Definition zdigits (z : Z) : list N :=
  match z with
  | Z0 => digits 0
  | Zpos p => digits (Npos p)
  | Zneg p => 45 :: digits (Npos p)
  end.
Definition val_digits (l : list N) : N := fold_left (fun a d => a * 10 + (d - 48)) l 0.

Fixpoint take_digits (l : list N) : list N * list N :=
  match l with
  | c :: r => if is_digit c then let '(a, b) := take_digits r in (c :: a, b) else ([], l)
  | [] => ([], [])
  end.

Definition hexdig (n : N) : N := if n <? 10 then 48 + n else 87 + n.
(** ['{:04x}'.format(n)] for [n < 65536] *)
Definition hex4s (n : N) : list N :=
  [hexdig (n / 4096); hexdig (n / 256 mod 16); hexdig (n / 16 mod 16); hexdig (n mod 16)].
(** value of one hexadecimal digit, upper or lower case *)
Definition unhexdig (c : N) : option N :=
  if is_digit c then Some (c - 48)
  else if (97 <=? c) && (c <=? 102) then Some (c - 87)
  else if (65 <=? c) && (c <=? 70) then Some (c - 55) else None.
Definition hex4v (a b c d : N) : option N :=
  match unhexdig a, unhexdig b, unhexdig c, unhexdig d with
  | Some a, Some b, Some c, Some d => Some (((a * 16 + b) * 16 + c) * 16 + d)
  | _, _, _, _ => None
  end.

(** * Facts *)

Lemma val_digits_app l d : val_digits (l ++ [d]) = val_digits l * 10 + (d - 48).
Proof. unfold val_digits. rewrite fold_left_app. reflexivity. Qed.

Lemma size_nat_div10 n : 10 <= n -> (N.size_nat (n / 10) < N.size_nat n)%nat.
Proof.
  intros H. assert (Hs: forall m, N.of_nat (N.size_nat m) = N.size m) by (intros m; destruct m as [|p]; cbn; auto; induction p; cbn [N.size_nat Pos.size_nat N.size Pos.size] in *; rewrite ?Nat2N.inj_succ, ?IHp; reflexivity).
  enough (N.size (n / 10) < N.size n) by (rewrite <- !Hs in *; lia).
  rewrite !N.size_log2 by lia.
  enough (N.log2 (n / 10) < N.log2 n) by lia.
  apply N.lt_le_trans with (N.log2 (2 * (n / 10))).
  - rewrite N.log2_double by lia. lia.
  - apply N.log2_le_mono. lia.
Qed.

Lemma digits_fuel_ok f n : (N.size_nat n < f)%nat ->
  val_digits (digits_fuel f n) = n /\ Forall (fun c => is_digit c = true) (digits_fuel f n)
  /\ (exists d r, digits_fuel f n = d :: r /\ (d = 48 -> r = [])).
Proof.
  revert n; induction f as [|f IH]; intros n Hf; [lia|]. cbn [digits_fuel].
  destruct (n <? 10) eqn:Hn.
  - repeat split.
    + unfold val_digits; cbn [fold_left]. lia.
    + repeat constructor. unfold is_digit. lia.
    + eauto.
  - pose proof (@size_nat_div10 n ltac:(lia)). specialize (IH (n / 10) ltac:(lia)).
    destruct IH as (IH1 & IH2 & (d & r & Hd & Hz)). repeat split.
    + rewrite val_digits_app, IH1. lia.
    + apply Forall_app. split; auto. repeat constructor. unfold is_digit. lia.
    + rewrite Hd. exists d, (r ++ [48 + n mod 10]). split; auto.
      intros ->. specialize (Hz eq_refl). subst r. rewrite Hd in IH1.
      unfold val_digits in IH1. cbn [fold_left] in IH1. lia.
Qed.
Lemma digits_ok n :
  val_digits (digits n) = n /\ Forall (fun c => is_digit c = true) (digits n)
  /\ (exists d r, digits n = d :: r /\ (d = 48 -> r = [])).
Proof. apply digits_fuel_ok. lia. Qed.

Lemma take_digits_app l r : Forall (fun c => is_digit c = true) l ->
  match r with [] => True | c :: _ => is_digit c = false end ->
  take_digits (l ++ r) = (l, r).
Proof.
  intros Hl Hr. induction Hl as [|c l Hc Hl IH]; cbn.
  - destruct r as [|c r]; cbn; auto. now rewrite Hr.
  - now rewrite Hc, IH.
Qed.
Lemma take_digits_length l : (length (snd (take_digits l)) <= length l)%nat.
Proof.
  induction l as [|c l IH]; cbn; auto. destruct (is_digit c); cbn; auto.
  destruct (take_digits l); cbn in *; lia.
Qed.

Lemma unhex_hexdig n : n < 16 -> unhexdig (hexdig n) = Some n.
Proof.
  intros H. unfold hexdig, unhexdig, is_digit.
  destruct (n <? 10) eqn:E.
  - replace ((48 <=? 48 + n) && (48 + n <=? 57)) with true by lia. f_equal; lia.
  - replace ((48 <=? 87 + n) && (87 + n <=? 57)) with false by lia.
    replace ((97 <=? 87 + n) && (87 + n <=? 102)) with true by lia. f_equal; lia.
Qed.
Lemma hex4v_hex4s n : n < 65536 ->
  hex4v (hexdig (n / 4096)) (hexdig (n / 256 mod 16)) (hexdig (n / 16 mod 16)) (hexdig (n mod 16)) = Some n.
Proof.
  intros H. unfold hex4v. rewrite !unhex_hexdig by lia. f_equal. lia.
Qed.
