(** C48: the launch script runs exactly the intended command. *)
From Verif Require Import PyBase PyDict JsonModel JsonProofs AdapterModel Utf8 ShModel.
Set Implicit Arguments.
Local Open Scope N_scope.
Ltac csplit := repeat match goal with |- _ /\ _ => split end.

(** * base64, as Python's b64decode reads a well-formed text *)
Fixpoint index_of (c : N) (l : list N) (i : N) : option N := match l with [] => None | x :: l => if c =? x then Some i else index_of c l (i + 1) end.
Definition b64val (c : N) : option N := index_of c b64_alphabet 0.
Fixpoint b64decode (l : pystr) : option bytes :=
  match l with
  | [] => Some []
  | [a; b; c; d] =>
    match b64val a, b64val b with
    | Some a, Some b =>
      if (c =? 61) && (d =? 61) then Some [a * 4 + b / 16]
      else match b64val c with
      | Some c =>
        if d =? 61 then Some [a * 4 + b / 16; b mod 16 * 16 + c / 4]
        else match b64val d with Some d => Some [a * 4 + b / 16; b mod 16 * 16 + c / 4; c mod 4 * 64 + d] | None => None end
      | None => None
      end
    | _, _ => None
    end
  | a :: b :: c :: d :: r =>
    match b64val a, b64val b, b64val c, b64val d, b64decode r with
    | Some a, Some b, Some c, Some d, Some t => Some (a * 4 + b / 16 :: b mod 16 * 16 + c / 4 :: c mod 4 * 64 + d :: t)
    | _, _, _, _, _ => None
    end
  | _ => None
  end.
Definition b64char (c : N) : bool := between 48 57 c || between 65 90 c || between 97 122 c || mem c (s "+/=").
Lemma b64c_all : forallb (fun i => let n := N.of_nat i in match b64val (b64c n) with Some m => (m =? n) | None => false end && b64char (b64c n) && negb (b64c n =? 61)) (seq 0 64) = true.
Proof. vm_compute. reflexivity. Qed.
Lemma b64c_ok n : n < 64 -> b64val (b64c n) = Some n /\ b64char (b64c n) = true /\ b64c n <> 61.
Proof.
  intros H. pose proof b64c_all as A. rewrite forallb_forall in A. specialize (A (N.to_nat n)). rewrite N2Nat.id in A.
  assert (I : In (N.to_nat n) (seq 0 64)) by (apply in_seq; lia). specialize (A I). cbv zeta in A. apply andb_prop in A as (A & C). apply andb_prop in A as (A & B).
  destruct (b64val (b64c n)); [|discriminate]. apply N.eqb_eq in A. subst. split; [reflexivity|]. split; [exact B|]. apply negb_true_iff, N.eqb_neq in C. exact C.
Qed.
Ltac Zify.zify_post_hook ::= Z.to_euclidean_division_equations.
Lemma ind3 (P : list N -> Prop) : P [] -> (forall a, P [a]) -> (forall a b, P [a; b]) -> (forall a b c r, P r -> P (a :: b :: c :: r)) -> forall l, P l.
Proof.
  intros H0 H1 H2 H3. assert (X : forall n l, (length l <= n)%nat -> P l).
  { induction n as [|n IH]; intros l L; destruct l as [|a [|b [|c r]]]; auto; cbn in L; try lia. apply H3, IH. lia. }
  intros l. eapply X. reflexivity.
Qed.
Lemma b64_more a b c d r t : r <> [] -> b64decode r = Some t -> b64decode (a :: b :: c :: d :: r) = 
    match b64val a, b64val b, b64val c, b64val d with
    | Some a, Some b, Some c, Some d => Some (a * 4 + b / 16 :: b mod 16 * 16 + c / 4 :: c mod 4 * 64 + d :: t)
    | _, _, _, _ => None
    end.
Proof. intros NE D. destruct r as [|x r]; [congruence|]. cbn [b64decode]. cbn [b64decode] in D. rewrite D. reflexivity. Qed.
Lemma b64_roundtrip l : Forall (fun b => b < 256) l -> b64decode (b64encode l) = Some l /\ forallb b64char (b64encode l) = true.
Proof.
  induction l as [|a|a b|a b c r IH] using ind3; intros F.
  - split; reflexivity.
  - inversion F as [|? ? A _]; subst. cbn [b64encode].
    destruct (@b64c_ok (a / 4)) as (V1 & C1 & _); [lia|]. destruct (@b64c_ok (a mod 4 * 16)) as (V2 & C2 & _); [lia|].
    cbn [b64decode]. rewrite V1, V2. cbn [N.eqb Pos.eqb andb forallb]. rewrite C1, C2. split; [|reflexivity]. f_equal. f_equal. lia.
  - inversion F as [|? ? A F']; subst. inversion F' as [|? ? B _]; subst. cbn [b64encode].
    destruct (@b64c_ok (a / 4)) as (V1 & C1 & _); [lia|]. destruct (@b64c_ok (a mod 4 * 16 + b / 16)) as (V2 & C2 & _); [lia|]. destruct (@b64c_ok (b mod 16 * 4)) as (V3 & C3 & N3); [lia|].
    cbn [b64decode]. rewrite V1, V2, V3. apply N.eqb_neq in N3. rewrite N3. cbn [N.eqb Pos.eqb andb forallb]. rewrite C1, C2, C3. split; [|reflexivity]. f_equal. f_equal; [lia|]. f_equal. lia.
  - inversion F as [|? ? A F']; subst. inversion F' as [|? ? B F'']; subst. inversion F'' as [|? ? C F3]; subst. destruct (IH F3) as (D & AL). cbn [b64encode].
    destruct (@b64c_ok (a / 4)) as (V1 & C1 & _); [lia|]. destruct (@b64c_ok (a mod 4 * 16 + b / 16)) as (V2 & C2 & _); [lia|]. destruct (@b64c_ok (b mod 16 * 4 + c / 64)) as (V3 & C3 & N3); [lia|]. destruct (@b64c_ok (c mod 64)) as (V4 & C4 & N4); [lia|].
    split; [|cbn [forallb]; now rewrite C1, C2, C3, C4, AL].
    assert (EQ : forall t, [a / 4 * 4 + (a mod 4 * 16 + b / 16) / 16; (a mod 4 * 16 + b / 16) mod 16 * 16 + (b mod 16 * 4 + c / 64) / 4; (b mod 16 * 4 + c / 64) mod 4 * 64 + c mod 64] ++ t = a :: b :: c :: t).
    { intros t. cbn [app]. f_equal; [lia|]. f_equal; [lia|]. f_equal. lia. }
    destruct r as [|x r].
    + cbn [b64encode b64decode]. rewrite V1, V2, V3, V4. apply N.eqb_neq in N3, N4. rewrite N3, N4. cbn [andb]. f_equal. apply (EQ []).
    + rewrite (@b64_more _ _ _ _ _ (x :: r)); [rewrite V1, V2, V3, V4; f_equal; apply (EQ (x :: r))| |exact D].
      intros E. destruct r as [|y [|z r]]; discriminate E.
Qed.

(** * Lexing quoted words *)
Definition no_nul (x : pystr) : Prop := ~ In 0 x.
Lemma lfold_app m out a : forall b, lfold m out (a ++ b) = match lfold m out a with Ok (m', out') => lfold m' out' b | Err e => Err e end.
Proof. revert m out. induction a as [|c a IH]; intros m out b; cbn [app lfold]; auto. destruct (lstep m out c) as [[m' out']|e]; auto. Qed.
Lemma sq_plain x : forall w out, no_nul x -> lfold (LSQ w) out (sq_escape x) = Ok (LSQ (w ++ map FQ x), out).
Proof.
  induction x as [|c x IH]; intros w out NN; cbn [sq_escape flat_map map]; [now rewrite app_nil_r|].
  assert (N1 : c <> 0) by (intros ->; apply NN; now left). assert (N2 : no_nul x) by (intros I; apply NN; now right).
  destruct (N.eqb_spec c 39) as [-> |N3].
  - rewrite lfold_app. cbn [lfold lstep s N_of_ascii]. change (lfold (LSQ w) out (s "'""'""'")) with (@Ok (lmode * list tok) (LSQ (w ++ [FQ 39]), out)).
    cbv iota beta. fold (sq_escape x). rewrite IH by exact N2. now rewrite <- app_assoc.
  - rewrite lfold_app. cbn [lfold lstep]. apply N.eqb_neq in N3. rewrite N3. apply N.eqb_neq in N1. rewrite N1. fold (sq_escape x). rewrite IH by exact N2. now rewrite <- app_assoc.
Qed.
(** A safe character stands for itself. *)
Lemma safe_all : forallb (fun i => let c := N.of_nat i in negb (sh_safe c) || negb ((c =? 39) || (c =? 34) || (c =? 92) || (c =? 32) || (c =? 9) || (c =? 10) || mem c (s "();&|<>") || (c =? 36) || (c =? 96) || (c =? 0) || (c =? 35) || mem c (s "*?[~{}"))) (seq 0 256) = true.
Proof. vm_compute. reflexivity. Qed.
Lemma safe_lt c : sh_safe c = true -> c < 256.
Proof.
  unfold sh_safe, between. intros H. apply orb_prop in H as [H|H].
  - apply orb_prop in H as [H|H]; [apply orb_prop in H as [H|H]|]; apply andb_prop in H as (_ & H); apply N.leb_le in H; lia.
  - apply mem_In in H. vm_compute in H. repeat (destruct H as [<-|H]; [reflexivity|]). contradiction.
Qed.
Lemma safe_ok c : sh_safe c = true -> (c =? 39) = false /\ (c =? 34) = false /\ (c =? 92) = false /\ (c =? 32) = false /\ (c =? 9) = false /\ (c =? 10) = false /\ mem c (s "();&|<>") = false /\
  (c =? 36) = false /\ (c =? 96) = false /\ (c =? 0) = false /\ (c =? 35) = false /\ mem c (s "*?[~{}") = false.
Proof.
  intros H. pose proof (safe_lt _ H) as L. pose proof safe_all as A. rewrite forallb_forall in A. specialize (A (N.to_nat c)). rewrite N2Nat.id in A.
  assert (I : In (N.to_nat c) (seq 0 256)) by (apply in_seq; lia). specialize (A I). cbv zeta in A. rewrite H in A. cbn [negb orb] in A. apply negb_true_iff in A.
  repeat (apply orb_false_iff in A as (A & ?)). repeat split; assumption.
Qed.
Lemma safe_plain x : forall cur out, x <> [] -> forallb sh_safe x = true -> lfold (LU cur) out x = Ok (LU (Some (lw cur ++ map FU x)), out).
Proof.
  induction x as [|c x IH]; intros cur out NE F; [congruence|]. cbn [forallb] in F. apply andb_prop in F as (C & F).
  destruct (safe_ok _ C) as (E1 & E2 & E3 & E4 & E5 & E6 & E7 & E8 & E9 & E10 & E11 & _). cbn [lfold lstep]. rewrite E1, E2, E3, E4, E5, E6, E7, E8, E9, E10, E11. cbn [orb andb].
  destruct x as [|d x]; [reflexivity|]. rewrite IH by (auto; discriminate). cbn [lw map]. now rewrite <- app_assoc.
Qed.
(** The parts of a quoted word: the characters of the text, each as itself. *)
Definition wfrags (x : pystr) : list frag := if (negb (eqb x [])) && forallb sh_safe x then map FU x else map FQ x.
Lemma quote_lex x cur out : no_nul x -> lfold (LU cur) out (quote x) = Ok (LU (Some (lw cur ++ wfrags x)), out).
Proof.
  intros NN. unfold quote, wfrags. destruct x as [|c x].
  - cbn. now rewrite app_nil_r.
  - cbn [negb andb]. replace (eqb (c :: x) []) with false by reflexivity. cbn [negb andb]. destruct (forallb sh_safe (c :: x)) eqn:F.
    + apply safe_plain; [discriminate|exact F].
    + rewrite lfold_app. change (lfold (LU cur) out (s "'")) with (@Ok (lmode * list tok) (LSQ (lw cur), out)). cbv iota beta. rewrite lfold_app, sq_plain by exact NN. reflexivity.
Qed.
(** * The whole script *)
Lemma lfold_out l : forall m out, lfold m out l = match lfold m [] l with Ok (m', o) => Ok (m', out ++ o) | Err e => Err e end.
Proof.
  assert (S1 : forall m out c, lstep m out c = match lstep m [] c with Ok (m', o) => Ok (m', out ++ o) | Err e => Err e end).
  { intros m out c. destruct m as [cur|cur|w|w|w|w|w n|w n|]; cbn [lstep];
      repeat match goal with |- context [if ?b then _ else _] => destruct b end; cbn [bind]; unfold dq_step;
      repeat match goal with |- context [if ?b then _ else _] => destruct b end; cbn [bind];
      try reflexivity; try (now rewrite app_nil_r); destruct cur; cbn [flush app]; rewrite ?app_nil_r, <- ?app_assoc; reflexivity. }
  induction l as [|c l IH]; intros m out; cbn [lfold]; [now rewrite app_nil_r|].
  rewrite S1. destruct (lstep m [] c) as [[m' o]|e]; [|reflexivity]. rewrite (IH m' (out ++ o)), (IH m' o). destruct (lfold m' [] l) as [[m2 o2]|e]; [|reflexivity]. now rewrite app_assoc.
Qed.
(** A piece of text whose tokens are known. *)
Lemma piece m out a m' o b : lfold m [] a = Ok (m', o) -> lfold m out (a ++ b) = lfold m' (out ++ o) b.
Proof. intros E. rewrite lfold_app, lfold_out, E. reflexivity. Qed.
Lemma word_sp x out r : no_nul x -> lfold (LU None) out (quote x ++ 32 :: r) = lfold (LU None) (out ++ [TW (wfrags x)]) r.
Proof. intros NN. rewrite lfold_app, quote_lex by exact NN. reflexivity. Qed.
Lemma words_sp l : forall out r, l <> [] -> Forall no_nul l -> lfold (LU None) out (join_sp (map quote l) ++ 32 :: r) = lfold (LU None) (out ++ map (fun x => TW (wfrags x)) l) r.
Proof.
  induction l as [|x l IH]; intros out r NE F; [congruence|]. inversion F as [|? ? X F']; subst. destruct l as [|y l].
  - cbn [map join_sp]. now rewrite word_sp.
  - replace (join_sp (map quote (x :: y :: l)) ++ 32 :: r) with (quote x ++ 32 :: (join_sp (map quote (y :: l)) ++ 32 :: r)) by (cbn [map join_sp]; rewrite <- app_assoc; reflexivity).
    rewrite word_sp by exact X. rewrite IH by (auto; discriminate). cbn [map]. now rewrite <- app_assoc.
Qed.
Lemma dq_b64 x : forall w out, forallb b64char x = true -> lfold (LDQ w) out x = Ok (LDQ (w ++ map FQ x), out).
Proof.
  induction x as [|c x IH]; intros w out F; cbn [lfold map]; [now rewrite app_nil_r|]. cbn [forallb] in F. apply andb_prop in F as (C & F).
  assert (K : dq_step w c = Ok (LDQ (w ++ [FQ c]))).
  { assert (L : c < 256 /\ negb ((c =? 34) || (c =? 92) || (c =? 36) || (c =? 96) || (c =? 0)) = true).
    { unfold b64char, between in C. apply orb_prop in C as [C|C].
      - split; [apply orb_prop in C as [C|C]; [apply orb_prop in C as [C|C]|]; apply andb_prop in C as (C1 & C); apply N.leb_le in C; lia|].
        apply negb_true_iff. repeat (apply orb_false_iff; split); apply N.eqb_neq; intros ->; discriminate C.
      - apply mem_In in C. vm_compute in C. repeat (destruct C as [<-|C]; [split; reflexivity|]). contradiction. }
    destruct L as (_ & L). apply negb_true_iff in L. repeat (apply orb_false_iff in L as (L & ?)). unfold dq_step. repeat match goal with H : (c =? _) = false |- _ => rewrite H; clear H end. reflexivity. }
  cbn [lstep]. rewrite K. cbn [bind]. rewrite IH by exact F. now rewrite <- app_assoc.
Qed.
Lemma split_words l : forall r cur, split_lines (map (fun x => TW (wfrags x)) l ++ r) cur = split_lines r (cur ++ map (fun x => TW (wfrags x)) l).
Proof. induction l as [|x l IH]; intros r cur; cbn [map app split_lines]; [now rewrite app_nil_r|]. rewrite IH. now rewrite <- app_assoc. Qed.
Lemma words_map l : words_of (map (fun x => TW (wfrags x)) l ++ [TW [FP (s "@")]]) = Ok (map wfrags l ++ [[FP (s "@")]]).
Proof. induction l as [|x l IH]; auto. unfold words_of in *. cbn [map app]. rewrite mapM_cons, IH. reflexivity. Qed.

Section Run.
Variable status : list pystr -> bool.
Variable arg0 : pystr.
Variable params : list pystr.
Lemma expand_q vars (x : pystr) : mapM (expand_frag arg0 vars) (map FQ x) = Ok (map (fun c => [c]) x).
Proof. induction x as [|c x IH]; auto. cbn [map]. rewrite mapM_cons, IH. reflexivity. Qed.
Lemma expand_u vars (x : pystr) : forallb sh_safe x = true -> mapM (expand_frag arg0 vars) (map FU x) = Ok (map (fun c => [c]) x).
Proof.
  induction x as [|c x IH]; auto. cbn [map forallb]. intros F. apply andb_prop in F as (C & F). rewrite mapM_cons, (IH F). cbn [expand_frag]. destruct (safe_ok _ C) as (_ & _ & _ & _ & _ & _ & _ & _ & _ & _ & _ & E). now rewrite E.
Qed.
Lemma concat_single (x : pystr) : concat (map (fun c => [c]) x) = x.
Proof. induction x; cbn; congruence. Qed.
Lemma expand_wfrags vars x : expand arg0 params vars (wfrags x) = Ok [x].
Proof.
  assert (G : forall w, mapM (expand_frag arg0 vars) w = Ok (map (fun c => [c]) x) -> (forall n, w <> [FP n]) -> expand arg0 params vars w = Ok [x]).
  { intros w E N. unfold expand. destruct w as [|[c|c|n] [|g w]]; try (rewrite E; cbn [bind]; now rewrite concat_single). now destruct (N n). }
  unfold wfrags. destruct (eqb_spec x []) as [-> |NE]; cbn [negb andb].
  - apply G; [apply expand_q|discriminate].
  - destruct (forallb sh_safe x) eqn:F; apply G; auto using expand_q, expand_u; intros n E; destruct x as [|? [|]]; discriminate.
Qed.
Lemma expand_map vars l : expand_all arg0 params vars (map wfrags l) = Ok l.
Proof. induction l as [|x l IH]; auto. cbn [map expand_all]. rewrite expand_wfrags. cbn [bind]. now rewrite IH. Qed.

Lemma unq_app a w : unq (map FU a ++ w) = match unq w with Some x => Some (a ++ x) | None => None end.
Proof. induction a as [|c a IH]; cbn [map app]; [now destruct (unq w)|]. cbn [unq fold_right]. fold (unq (map FU a ++ w)). rewrite IH. destruct (unq w); reflexivity. Qed.
Definition src (b64 : pystr) : pystr := script_py_before ++ b64 ++ script_py_after.
(** The words of a command line that starts with an absolute path. *)
Lemma wfrags_abs p : exists f w, wfrags (47 :: p) = f :: w /\ (f = FU 47 \/ f = FQ 47).
Proof.
  unfold wfrags. destruct (negb (eqb (47 :: p) []) && forallb sh_safe (47 :: p)); cbn [map]; eauto.
Qed.
Lemma unq_abs p : (exists r, unq (wfrags (47 :: p)) = Some (47 :: r)) \/ unq (wfrags (47 :: p)) = None.
Proof.
  destruct (wfrags_abs p) as (f & w & -> & [-> | ->]); [|now right]. cbn [unq fold_right]. fold (unq w). destruct (unq w); [left; eauto|now right].
Qed.
Lemma abs_cmd p ws : is_reserved (wfrags (47 :: p)) = false /\ assign_at (wfrags (47 :: p)) [] = None /\
  (forall st, run_cmd status arg0 params st (CSimple (wfrags (47 :: p) :: ws)) = run_plain status arg0 params st (wfrags (47 :: p) :: ws)) /\
  forall x, fun_close (TW (wfrags (47 :: p)) :: x) = false.
Proof.
  csplit.
  - unfold is_reserved. destruct (unq_abs p) as [(r & ->)| ->]; [vm_compute; reflexivity|reflexivity].
  - destruct (wfrags_abs p) as (f & w & -> & [-> | ->]); reflexivity.
  - intros st. unfold run_cmd. cbn [map]. destruct (unq_abs p) as [(r & ->)| ->]; [|reflexivity].
    destruct (map unq ws) as [|[b|] [|c conds]]; reflexivity.
  - intros x. unfold fun_close. destruct x; [|reflexivity]. destruct (unq_abs p) as [(r & ->)| ->]; [|reflexivity]. vm_compute. reflexivity.
Qed.
Lemma run_abs p ws st argv : expand_all arg0 params (sh_vars st) ws = Ok argv ->
  run_plain status arg0 params st (wfrags (47 :: p) :: ws) = Ok (mkSh (sh_vars st) (sh_funs st) (sh_trap st) (sh_e st) (sh_log st ++ [(47 :: p) :: argv]), status ((47 :: p) :: argv)).
Proof.
  intros E. unfold run_plain. destruct (abs_cmd p ws) as (_ & -> & _). cbn [expand_all]. rewrite expand_wfrags. cbn [bind]. rewrite E. cbn [bind app].
  replace (mem (47 :: p) builtins) with false by (vm_compute; reflexivity). reflexivity.
Qed.
End Run.

Section Whole.
Variable status : list pystr -> bool.
Variable arg0 : pystr.
Variable params : list pystr.
Definition p1 : pystr := s "#!/bin/sh
set -e

cleanup () {
    SN=""".
Definition p2 : pystr := s """
    ".
Definition p3 : pystr := s "-c """ ++ script_py_before ++ s "${SN}" ++ script_py_after ++ s """
}

trap cleanup EXIT INT ABRT KILL TERM

rm -f ""$0""
".
Definition p4 : pystr := s """$@""
".
Lemma script_parts sock python l : launch_script sock python l = p1 ++ sock ++ p2 ++ python ++ 32 :: p3 ++ python ++ 32 :: l ++ 32 :: p4.
Proof. unfold launch_script, p1, p2, p3, p4. rewrite <- !app_assoc. reflexivity. Qed.
Definition u (x : string) : tok := TW (map FU (s x)).
Definition w_src : list frag := map FQ script_py_before ++ [FP (s "SN")] ++ map FQ script_py_after.
Definition toks1 : list tok := [TNL; u "set"; u "-e"; TNL; TNL; u "cleanup"; TOp 40; TOp 41; u "{"; TNL].
Definition toks3 : list tok := [u "-c"; TW w_src; TNL; u "}"; TNL; TNL; u "trap"; u "cleanup"; u "EXIT"; u "INT"; u "ABRT"; u "KILL"; u "TERM"; TNL; TNL; u "rm"; u "-f"; TW [FP (s "0")]; TNL].
Lemma lex_p1 : lfold (LU None) [] p1 = Ok (LDQ (map FU (s "SN=")), toks1).
Proof. vm_compute. reflexivity. Qed.
Lemma lex_p2 w : lfold (LDQ w) [] p2 = Ok (LU None, [TW w; TNL]).
Proof. reflexivity. Qed.
Lemma lex_p3 : lfold (LU None) [] p3 = Ok (LU None, toks3).
Proof. vm_compute. reflexivity. Qed.
Lemma lex_p4 : lfold (LU None) [] p4 = Ok (LU None, [TW [FP (s "@")]; TNL]).
Proof. vm_compute. reflexivity. Qed.
Lemma lex_script sock python l : forallb b64char sock = true -> no_nul python -> Forall no_nul l -> l <> [] ->
  lex (launch_script sock (quote python) (join_sp (map quote l))) =
  Ok (toks1 ++ [TW (map FU (s "SN=") ++ map FQ sock); TNL] ++ [TW (wfrags python)] ++ toks3 ++ map (fun x => TW (wfrags x)) (python :: l) ++ [TW [FP (s "@")]; TNL]).
Proof.
  intros B NP NL NE. unfold lex. rewrite script_parts.
  erewrite piece by exact lex_p1. rewrite lfold_app, dq_b64 by exact B. erewrite piece by apply lex_p2.
  rewrite word_sp by exact NP. erewrite piece by exact lex_p3. rewrite word_sp by exact NP. rewrite words_sp by assumption.
  rewrite <- (app_nil_r p4). erewrite piece by exact lex_p4. cbn [lfold bind flush map app]. rewrite <- !app_assoc. reflexivity.
Qed.
Definition w_sn (sock : pystr) : list frag := map FU (s "SN=") ++ map FQ sock.
Lemma parse_empty r o : parse ([] :: r) o = parse r o.
Proof. reflexivity. Qed.
Lemma parse_simple t l r ws : fun_open (t :: l) = None -> simple_of (t :: l) = Ok ws -> parse ((t :: l) :: r) None = bind (parse r None) (fun cs => Ok (CSimple ws :: cs)).
Proof. intros E1 E2. cbn [parse]. rewrite E1, E2. reflexivity. Qed.
Lemma parse_open t l r n : fun_open (t :: l) = Some n -> parse ((t :: l) :: r) None = parse r (Some (n, [])).
Proof. intros E1. cbn [parse]. rewrite E1. reflexivity. Qed.
Lemma parse_in t l r n b ws : fun_close (t :: l) = false -> simple_of (t :: l) = Ok ws -> parse ((t :: l) :: r) (Some (n, b)) = parse r (Some (n, b ++ [ws])).
Proof. intros E1 E2. cbn [parse]. rewrite E1, E2. reflexivity. Qed.
Lemma parse_close t l r n b : fun_close (t :: l) = true -> parse ((t :: l) :: r) (Some (n, b)) = bind (parse r None) (fun cs => Ok (CFun n b :: cs)).
Proof. intros E1. cbn [parse]. rewrite E1. reflexivity. Qed.
Lemma simple_abs p l ws : words_of l = Ok ws -> simple_of (TW (wfrags (47 :: p)) :: l) = Ok (wfrags (47 :: p) :: ws).
Proof. intros E. unfold simple_of, words_of in *. rewrite mapM_cons, E. cbn [bind]. destruct (abs_cmd status arg0 params p ws) as (-> & _). reflexivity. Qed.
Lemma parse_script sock p l : 
  parse (split_lines (toks1 ++ [TW (w_sn sock); TNL] ++ [TW (wfrags (47 :: p))] ++ toks3 ++ map (fun x => TW (wfrags x)) ((47 :: p) :: l) ++ [TW [FP (s "@")]; TNL]) []) None =
  Ok [CSimple [map FU (s "set"); map FU (s "-e")];
      CFun (s "cleanup") [[w_sn sock]; [wfrags (47 :: p); map FU (s "-c"); w_src]];
      CSimple (map (fun x => map FU (s x)) ["trap"; "cleanup"; "EXIT"; "INT"; "ABRT"; "KILL"; "TERM"]%string);
      CSimple [map FU (s "rm"); map FU (s "-f"); [FP (s "0")]];
      CSimple (map wfrags ((47 :: p) :: l) ++ [[FP (s "@")]])].
Proof.
  assert (SL : split_lines (toks1 ++ [TW (w_sn sock); TNL] ++ [TW (wfrags (47 :: p))] ++ toks3 ++ map (fun x => TW (wfrags x)) ((47 :: p) :: l) ++ [TW [FP (s "@")]; TNL]) [] =
    [[]; [u "set"; u "-e"]; []; [u "cleanup"; TOp 40; TOp 41; u "{"]; [TW (w_sn sock)]; [TW (wfrags (47 :: p)); u "-c"; TW w_src]; [u "}"]; [];
     [u "trap"; u "cleanup"; u "EXIT"; u "INT"; u "ABRT"; u "KILL"; u "TERM"]; []; [u "rm"; u "-f"; TW [FP (s "0")]]; map (fun x => TW (wfrags x)) ((47 :: p) :: l) ++ [TW [FP (s "@")]]; []]).
  { unfold toks1, toks3. cbn [app]. unfold u. cbn [split_lines N.eqb Pos.eqb app].
    do 11 f_equal. rewrite split_words. cbn [split_lines app]. reflexivity. }
  rewrite SL. rewrite parse_empty. erewrite parse_simple by (vm_compute; reflexivity). rewrite parse_empty. erewrite parse_open by (vm_compute; reflexivity).
  erewrite (@parse_in _ _ _ _ _ [w_sn sock]); [|unfold fun_close, w_sn; rewrite unq_app; destruct (unq (map FQ sock)); vm_compute; reflexivity|].
  2: { unfold simple_of, words_of. rewrite mapM_cons, mapM_nil. cbn [bind]. replace (is_reserved (w_sn sock)) with false; [reflexivity|]. unfold is_reserved, w_sn; rewrite unq_app;
       (destruct (unq (map FQ sock)); [|reflexivity]); vm_compute; reflexivity. }
  erewrite parse_in; [|apply (proj2 (proj2 (proj2 (abs_cmd status arg0 params p []))))|apply simple_abs; reflexivity].
  erewrite parse_close by (vm_compute; reflexivity). rewrite parse_empty. erewrite parse_simple by (vm_compute; reflexivity). rewrite parse_empty. erewrite parse_simple by (vm_compute; reflexivity).
  cbn [map app]. erewrite parse_simple; [|destruct l as [|? [|]]; reflexivity|apply simple_abs, words_map].
  cbn [parse bind]. reflexivity.
Qed.

(** The clean-up program, line by line: connect to the socket whose name is given in base64. *)
Definition lines (l : list pystr) : pystr := concat (map (fun x => x ++ [10]) l).
Definition cleanup_program (b64 : pystr) : pystr := lines
  [[]; s "import base64"; s "import socket"; []; s "n = base64.b64decode('" ++ b64 ++ s "').decode()"; s "try:";
   s "    with socket.socket(socket.AF_UNIX, socket.SOCK_STREAM) as s:"; s "        s.connect(n)"; s "except OSError:"; s "    pass"].
Lemma cleanup_ok b : script_py_before ++ b ++ script_py_after = cleanup_program b.
Proof. unfold cleanup_program, lines. cbn [map concat]. rewrite <- !app_assoc. reflexivity. Qed.
(** C48: for every interpreter (an absolute path), address, log settings and socket path,
    the script starts [rm -f] on itself, then (if that worked) the interpreter with exactly
    the intended arguments followed by the script's own, and at the end the interpreter
    with the clean-up program, in which the socket's path is embedded in base64 and restored
    by decoding it. *)
Theorem C48_launch_script python addr log sock :
  hd_error python = Some 47 -> no_nul python -> no_nul addr -> match log with Some (f, lv) => no_nul f /\ no_nul lv | None => True end -> Forall scalar sock ->
  exists text b64 sockbytes,
    make_script python addr sock log = Ok text /\
    sh_run status arg0 params text = Ok
      ([s "rm"; s "-f"; arg0] ::
       (if status [s "rm"; s "-f"; arg0] then [python :: [s "-m"; s "ansibug"; s "connect"; s "--addr"; addr] ++ match log with Some (f, lv) => [s "--log-file"; f; s "--log-level"; lv] | None => [] end ++ params] else []) ++
       [[python; s "-c"; cleanup_program b64]]) /\
    b64decode b64 = Some sockbytes /\ utf8_decode sockbytes = Ok sock /\ forallb b64char b64 = true.
Proof.
  intros HD NP NA NL SC. destruct python as [|c p]; [discriminate|]. cbn in HD. injection HD as ->.
  destruct (utf8_encode_decode SC) as (sb & E & B & D). destruct (@b64_roundtrip sb B) as (RT & BC).
  assert (NN : Forall no_nul (ansibug_args addr log)).
  { assert (K : forall x : pystr, forallb (fun c => negb (c =? 0)) x = true -> no_nul x).
    { intros x F I. rewrite forallb_forall in F. specialize (F _ I). discriminate. }
    unfold ansibug_args. apply Forall_app. split; [repeat (constructor; [first [exact NA|apply K; vm_compute; reflexivity]|]); constructor|].
    destruct log as [(f, lv)|]; [|constructor]. destruct NL as (N1 & N2). repeat (constructor; [first [exact N1|exact N2|apply K; vm_compute; reflexivity]|]). constructor. }
  eexists _, (b64encode sb), sb. rewrite <- cleanup_ok. unfold make_script. rewrite E. cbn [bind]. split; [reflexivity|]. split; [|now repeat split].
  unfold sh_run. rewrite lex_script; [|exact BC|exact NP|exact NN|discriminate]. cbn [bind]. fold (w_sn (b64encode sb)). rewrite parse_script. cbn [bind].
  assert (EX : forall vars, expand_all arg0 params vars (map wfrags (ansibug_args addr log) ++ [[FP (s "@")]]) = Ok (ansibug_args addr log ++ params)).
  { intros vars. generalize (ansibug_args addr log) as a. induction a as [|x a IH]; cbn [map app expand_all].
    - change (expand arg0 params vars [FP (s "@")]) with (@Ok (list pystr) params). cbn [bind]. now rewrite app_nil_r.
    - rewrite expand_wfrags. cbn [bind]. now rewrite IH. }
  set (argv := (47 :: p) :: [s "-m"; s "ansibug"; s "connect"; s "--addr"; addr] ++ match log with Some (f, lv) => [s "--log-file"; f; s "--log-level"; lv] | None => [] end ++ params).
  assert (AV : argv = (47 :: p) :: ansibug_args addr log ++ params) by (subst argv; unfold ansibug_args; rewrite <- app_assoc; reflexivity).
  set (body := [[w_sn (b64encode sb)]; [wfrags (47 :: p); map FU (s "-c"); w_src]]).
  (* the clean-up function *)
  assert (CL : forall funs tr log', exists st', run_body status arg0 params (mkSh [] funs tr true log') body = Ok st' /\ sh_log (fst st') = log' ++ [[47 :: p; s "-c"; src (b64encode sb)]]).
  { intros funs tr log'. unfold body. cbn [run_body]. unfold run_plain at 1.
    change (assign_at (w_sn (b64encode sb)) []) with (Some (s "SN", map FQ (b64encode sb))). cbv iota.
    assert (X : expand arg0 params [] (map FQ (b64encode sb)) = Ok [b64encode sb]).
    { unfold expand. destruct (b64encode sb) as [|x [|y r]] eqn:BE; [reflexivity|reflexivity|]. cbn [map]. rewrite <- (concat_single (x :: y :: r)).
      change (FQ x :: FQ y :: map FQ r) with (map FQ (x :: y :: r)). rewrite expand_q. reflexivity. }
    cbn [sh_vars]. rewrite X. cbn [bind negb andb sh_e]. erewrite run_abs.
    2: { cbn [expand_all]. assert (Y : expand arg0 params [(s "SN", b64encode sb)] w_src = Ok [src (b64encode sb)]).
         { unfold expand. replace (mapM (expand_frag arg0 [(s "SN", b64encode sb)]) w_src) with (@Ok (list pystr) (map (fun c => [c]) script_py_before ++ [b64encode sb] ++ map (fun c => [c]) script_py_after)) by (vm_compute; reflexivity).
           cbn [bind]. rewrite concat_app, concat_single. cbn [concat app]. rewrite concat_single. reflexivity. }
         cbn [dset sh_vars]. rewrite Y. reflexivity. }
    cbn [bind]. destruct (status _); cbn [negb andb sh_e run_body]; eexists; split; try reflexivity. }
  assert (RM : forall st, run_cmd status arg0 params st (CSimple [map FU (s "rm"); map FU (s "-f"); [FP (s "0")]]) =
     Ok (mkSh (sh_vars st) (sh_funs st) (sh_trap st) (sh_e st) (sh_log st ++ [[s "rm"; s "-f"; arg0]]), status [s "rm"; s "-f"; arg0])) by reflexivity.
  cbn [run_cmds].
  change (run_cmd status arg0 params (mkSh [] [] None false []) (CSimple [map FU (s "set"); map FU (s "-e")])) with (@Ok (Sh * bool) (mkSh [] [] None true [], true)).
  cbn [bind negb andb sh_e]. fold body. 
  change (run_cmd status arg0 params (mkSh [] [] None true []) (CFun (s "cleanup") body)) with (@Ok (Sh * bool) (mkSh [] [(s "cleanup", body)] None true [], true)).
  cbn [bind negb andb sh_e].
  change (run_cmd status arg0 params (mkSh [] [(s "cleanup", body)] None true []) (CSimple (map (fun x => map FU (s x)) ["trap"; "cleanup"; "EXIT"; "INT"; "ABRT"; "KILL"; "TERM"]%string)))
    with (@Ok (Sh * bool) (mkSh [] [(s "cleanup", body)] (Some (s "cleanup")) true [], true)).
  cbn [bind negb andb sh_e]. rewrite RM. cbn [bind sh_e sh_vars sh_funs sh_trap sh_log app].
  destruct (status [s "rm"; s "-f"; arg0]); cbn [negb andb].
  - cbn [map app]. rewrite (proj1 (proj2 (proj2 (abs_cmd status arg0 params p _)))). erewrite run_abs by apply EX. cbn [bind sh_e sh_vars sh_funs sh_trap sh_log app].
    rewrite <- AV. destruct (CL [(s "cleanup", body)] (Some (s "cleanup")) [[s "rm"; s "-f"; arg0]; argv]) as (st' & R1 & R2).
    destruct (status argv); cbn [negb andb bind run_cmds sh_trap sh_funs]; change (dget [(s "cleanup", body)] (s "cleanup")) with (Some body); cbv iota; rewrite R1; cbn [bind]; rewrite R2; reflexivity.
  - destruct (CL [(s "cleanup", body)] (Some (s "cleanup")) [[s "rm"; s "-f"; arg0]]) as (st' & R1 & R2).
    cbn [bind sh_trap sh_funs]; change (dget [(s "cleanup", body)] (s "cleanup")) with (Some body); cbv iota; rewrite R1; cbn [bind]; rewrite R2; reflexivity.
Qed.
End Whole.
Print Assumptions C48_launch_script.
(** A case with blanks, quotes, $, ; and a newline in every place. *)
Example script_case : exists text, make_script (s "/opt/it's $HOME/py""`x`") (s "uds:///tmp/a b;rm -rf *") (s "/tmp/so'ck$(x)") (Some (s "/tmp/l
og", s "info")) = Ok text /\
  sh_run (fun _ => true) (s "/tmp/launch") [s "main.yml"; s "-e"; s "a b"] text = Ok
   [[s "rm"; s "-f"; s "/tmp/launch"];
    [s "/opt/it's $HOME/py""`x`"; s "-m"; s "ansibug"; s "connect"; s "--addr"; s "uds:///tmp/a b;rm -rf *"; s "--log-file"; s "/tmp/l
og"; s "--log-level"; s "info"; s "main.yml"; s "-e"; s "a b"];
    [s "/opt/it's $HOME/py""`x`"; s "-c"; script_py_before ++ s "L3RtcC9zbydjayQoeCk=" ++ script_py_after]].
Proof. eexists. split; vm_compute; reflexivity. Qed.
(** The shell model tells quoted from unquoted text apart: without the quotes other
    programs would run (or the text would be expanded, which the model refuses). *)
Example shell_case : sh_run (fun _ => true) [] [] (s "/bin/x a b; /bin/rm c") = Ok [[s "/bin/x"; s "a"; s "b"]; [s "/bin/rm"; s "c"]] /\
  sh_run (fun _ => true) [] [] (s "/bin/x 'a b; /bin/rm c'") = Ok [[s "/bin/x"; s "a b; /bin/rm c"]] /\
  sh_run (fun _ => true) [] [] (s "/bin/x $HOME") = Err EUnmodelled /\ sh_run (fun _ => true) [] [] (s "/bin/x *.yml") = Err EUnmodelled /\
  sh_run (fun _ => true) [] [] (s "a=b/bin/x y") = Err EUnmodelled.
Proof. repeat split; vm_compute; reflexivity. Qed.
