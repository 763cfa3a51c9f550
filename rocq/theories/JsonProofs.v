From Verif Require Import PyBase PyDict Digits JsonModel.
From Coq Require Import ZifyBool ZifyNat ZifyN.
Ltac Zify.zify_post_hook ::= Z.div_mod_to_equations.
Local Open Scope N_scope.
Arguments N.add : simpl never.
Arguments N.sub : simpl never.
Arguments N.mul : simpl never.
Arguments N.div : simpl never.
Arguments N.modulo : simpl never.
Arguments dumps_str : simpl never.

(** Unicode scalar value: a code point that is not a surrogate. *)
Definition scalar (c : N) : Prop := c < 55296 \/ (57344 <= c /\ c < 1114112).

(** Values the encoder is meant for: strings of scalar values, objects with distinct keys. *)
Fixpoint wfj (v : json) : Prop :=
  match v with
  | JStr t => Forall scalar t
  | JArr l => fold_right (fun x P => wfj x /\ P) True l
  | JObj d => NoDup (map fst d) /\ fold_right (fun kv P => Forall scalar (fst kv) /\ wfj (snd kv) /\ P) True d
  | _ => True
  end.

Section JsonInd.
  Variable P : json -> Prop.
  Hypothesis Hn : P JNull.
  Hypothesis Hb : forall b, P (JBool b).
  Hypothesis Hi : forall z, P (JInt z).
  Hypothesis Hs : forall t, P (JStr t).
  Hypothesis Ha : forall l, Forall P l -> P (JArr l).
  Hypothesis Ho : forall d, Forall (fun kv => P (snd kv)) d -> P (JObj d).
  Fixpoint json_ind2 (v : json) : P v :=
    match v with
    | JNull => Hn | JBool b => Hb b | JInt z => Hi z | JStr t => Hs t
    | JArr l => Ha _ ((fix go l := match l return Forall P l with [] => Forall_nil _ | x :: r => Forall_cons _ (json_ind2 x) (go r) end) l)
    | JObj d => Ho _ ((fix go d := match d return Forall (fun kv => P (snd kv)) d with [] => Forall_nil _ | x :: r => Forall_cons _ (json_ind2 (snd x)) (go r) end) d)
    end.
End JsonInd.

(** * ASCII-ness of the encoder output *)
Definition plain (c : N) : Prop := 32 <= c /\ c < 127.

Lemma hexdig_plain n : n < 16 -> plain (hexdig n).
Proof. unfold plain, hexdig. destruct (n <? 10) eqn:E; lia. Qed.
Lemma hex4s_plain n : n < 65536 -> Forall plain (hex4s n).
Proof. intros H. unfold hex4s. repeat constructor; apply hexdig_plain; lia. Qed.
Lemma plain_list l : forallb (fun c => (32 <=? c) && (c <? 127)) l = true -> Forall plain l.
Proof.
  intros H. rewrite forallb_forall in H. apply Forall_forall. intros x Hx. specialize (H x Hx).
  unfold plain; lia.
Qed.
Ltac plain_lit := apply plain_list; reflexivity.

Lemma esc_char_plain c : c < 1114112 -> Forall plain (esc_char c).
Proof.
  intros H. unfold esc_char.
  repeat match goal with |- context [if ?b then _ else _] => destruct b eqn:?; [try plain_lit|] end.
  - repeat constructor; unfold plain; lia.
  - apply Forall_app; split; [plain_lit|apply hex4s_plain; lia].
  - apply Forall_app; split; [plain_lit|]. apply Forall_app; split; [apply hex4s_plain; lia|].
    apply Forall_app; split; [plain_lit|apply hex4s_plain; lia].
Qed.
Lemma flat_map_Forall {A B} (f : A -> list B) (P : A -> Prop) (Q : B -> Prop) l :
  (forall x, P x -> Forall Q (f x)) -> Forall P l -> Forall Q (flat_map f l).
Proof. intros Hf Hl. induction Hl; cbn; auto. apply Forall_app; auto. Qed.

Definition cp (c : N) : Prop := c < 1114112.
Lemma scalar_cp c : scalar c -> cp c.
Proof. unfold scalar, cp. lia. Qed.

Lemma dumps_str_plain t : Forall cp t -> Forall plain (dumps_str t).
Proof.
  intros H. unfold dumps_str. apply Forall_app; split; [plain_lit|].
  apply Forall_app; split; [|plain_lit].
  eapply flat_map_Forall; [|exact H]. intros x Hx. now apply esc_char_plain.
Qed.
Lemma join_Forall (P : N -> Prop) sep ls : Forall P sep -> Forall (Forall P) ls -> Forall P (join sep ls).
Proof.
  intros Hs Hl. induction Hl as [|x l Hx Hl IH]; cbn; auto.
  destruct l; auto. apply Forall_app; split; auto. apply Forall_app; split; auto.
Qed.
Lemma zdigits_plain z : Forall plain (zdigits z).
Proof.
  assert (Hd: forall n, Forall plain (digits n)).
  { intros n. destruct (digits_ok n) as (_ & H & _). eapply Forall_impl; [|exact H].
    unfold is_digit, plain. intros; lia. }
  destruct z; cbn [zdigits]; auto. constructor; auto. unfold plain; lia.
Qed.

(** every string in the value consists of code points (always true of Python strings) *)
Fixpoint cpj (v : json) : Prop :=
  match v with
  | JStr t => Forall cp t
  | JArr l => fold_right (fun x P => cpj x /\ P) True l
  | JObj d => fold_right (fun kv P => Forall cp (fst kv) /\ cpj (snd kv) /\ P) True d
  | _ => True
  end.

Lemma wfj_cpj v : wfj v -> cpj v.
Proof.
  induction v as [| | | |l IH|d IH] using json_ind2; cbn; auto.
  - intros H. eapply Forall_impl; [|exact H]. apply scalar_cp.
  - induction IH; cbn; intuition auto.
  - intros [_ H]. induction IH; cbn in *; intuition auto.
    eapply Forall_impl; [|eassumption]. apply scalar_cp.
Qed.

Lemma dumps_plain v : cpj v -> Forall plain (dumps v).
Proof.
  induction v as [|b|z|t|l IH|d IH] using json_ind2; cbn [dumps cpj]; intros Hw.
  - plain_lit.
  - destruct b; plain_lit.
  - apply zdigits_plain.
  - now apply dumps_str_plain.
  - apply Forall_app; split; [plain_lit|]. apply Forall_app; split; [|plain_lit].
    apply join_Forall; [plain_lit|]. induction IH as [|x l Hx IH1 IH2]; cbn in *; constructor; tauto.
  - apply Forall_app; split; [plain_lit|]. apply Forall_app; split; [|plain_lit].
    apply join_Forall; [plain_lit|]. induction IH as [|[k x] d Hx IH1 IH2]; cbn in *; constructor; try tauto.
    apply Forall_app; split; [apply dumps_str_plain; tauto|]. apply Forall_app; split; [plain_lit|tauto].
Qed.

(** * Round trip *)

Lemma consR_Ok c r a b : r = Ok (a, b) -> consR c r = Ok (c :: a, b).
Proof. now intros ->. Qed.

Lemma scan_str_esc c r : scalar c -> scan_str (esc_char c ++ r) = consR c (scan_str r).
Proof.
  intros Hc. unfold esc_char.
  repeat match goal with |- context [if ?c =? ?k then _ else _] =>
    destruct (N.eqb_spec c k); [subst; reflexivity|] end.
  destruct ((32 <=? c) && (c <=? 126)) eqn:E1.
  { cbn [app scan_str]. replace (c =? 34) with false by lia. replace (c =? 92) with false by lia.
    replace (c <? 32) with false by lia. reflexivity. }
  destruct (c <? 65536) eqn:E2.
  - change (s "\u") with [92; 117]. unfold hex4s. cbn [app].
    cbn [scan_str]. cbn [N.eqb Pos.eqb]. rewrite hex4v_hex4s by lia.
    replace (is_high c) with false by (unfold is_high, scalar in *; lia). reflexivity.
  - change (s "\u") with [92; 117]. unfold hex4s. cbn [app].
    cbn [scan_str]. cbn [N.eqb Pos.eqb andb]. rewrite !hex4v_hex4s by (unfold scalar in *; lia).
    replace (is_high _) with true by (unfold is_high, scalar in *; lia).
    replace (is_low _) with true by (unfold is_low, scalar in *; lia).
    f_equal. unfold scalar in *. lia.
Qed.

Lemma scan_dumps_str t r : Forall scalar t -> scan_str (flat_map esc_char t ++ 34 :: r) = Ok (t, r).
Proof.
  intros H. induction H as [|c t Hc Ht IH]; [reflexivity|].
  cbn [flat_map]. rewrite <- app_assoc, scan_str_esc by auto. now apply consR_Ok.
Qed.

(** what may follow a value in a JSON text *)
Definition stop (r : list N) : Prop :=
  match r with [] => True | c :: _ => c = 44 \/ c = 93 \/ c = 125 end.

Lemma scan_num_digits neg n r : stop r ->
  scan_num neg (digits n ++ r) = Ok (JInt (if neg then - Z.of_N n else Z.of_N n), r).
Proof.
  intros Hr. destruct (digits_ok n) as (Hv & Hd & (d & ds & Heq & Hz)).
  assert (Hft : float_tail r = false).
  { destruct r as [|c r]; cbn in *; auto. destruct Hr as [->|[->| ->]]; reflexivity. }
  assert (Hnd : match r with [] => True | c :: _ => is_digit c = false end).
  { destruct r as [|c r]; cbn in *; auto. destruct Hr as [->|[->| ->]]; reflexivity. }
  assert (Htd : take_digits (digits n ++ r) = (digits n, r)) by (now apply take_digits_app).
  unfold scan_num. rewrite Htd. rewrite Heq in *. cbn [app].
  destruct (d =? 48) eqn:E.
  - assert (d = 48) by lia. subst d. rewrite (Hz eq_refl) in *. cbn [app]. rewrite Hft.
    unfold val_digits in Hv. cbn [fold_left] in Hv. replace n with 0 by lia. destruct neg; reflexivity.
  - inversion Hd; subst. rewrite H1, Hft. rewrite <- Heq in *. reflexivity.
Qed.

Definition jhead (c : N) : Prop := c = 34 \/ c = 123 \/ c = 91 \/ c = 110 \/ c = 116 \/ c = 102 \/ c = 45 \/ is_digit c = true.

Lemma dumps_head v : exists c r, dumps v = c :: r /\ jhead c.
Proof.
  unfold jhead.
  destruct v as [|[|]|z|t|l|d]; cbn [dumps]; try (eexists; eexists; split; [reflexivity|]; vm_compute; tauto).
  assert (Hh : forall n, exists c r, digits n = c :: r /\ is_digit c = true).
  { intros n. destruct (digits_ok n) as (_ & Hd & (c & r & Heq & _)). exists c, r. split; auto.
    rewrite Heq in Hd. now inversion Hd. }
  destruct z; cbn [zdigits].
  - destruct (Hh 0) as (c & r & -> & H). exists c, r. split; auto. tauto.
  - destruct (Hh (Npos p)) as (c & r & -> & H). exists c, r. split; auto. tauto.
  - eexists; eexists; split; [reflexivity|]. tauto.
Qed.

Lemma jhead_skip c r : jhead c -> skip_ws (c :: r) = c :: r.
Proof.
  intros H. cbn. assert (is_ws c = false) as ->; auto.
  unfold jhead, is_ws, is_digit in *. lia.
Qed.
Lemma skip_ws_dumps v r : skip_ws (dumps v ++ r) = dumps v ++ r.
Proof. destruct (dumps_head v) as (c & t & -> & H). cbn [app]. now apply jhead_skip. Qed.
Lemma drop1_dumps x v r : x = 93 \/ x = 125 -> drop1 x (dumps v ++ r) = None.
Proof.
  intros Hx. destruct (dumps_head v) as (c & t & -> & H). cbn.
  replace (c =? x) with false; auto. unfold jhead, is_digit in *. lia.
Qed.

Fixpoint jsize (v : json) : nat :=
  match v with
  | JArr l => S (fold_right (fun x n => S (jsize x) + n)%nat O l)
  | JObj d => S (fold_right (fun kv n => S (jsize (snd kv)) + n)%nat O d)
  | _ => 1%nat
  end.
Definition lsize (l : list json) : nat := fold_right (fun x n => S (jsize x) + n)%nat O l.
Definition dsize (d : list (pystr * json)) : nat := fold_right (fun kv n => S (jsize (snd kv)) + n)%nat O d.

Lemma jsize_pos v : (1 <= jsize v)%nat.
Proof. destruct v; cbn; lia. Qed.

Lemma join_length sep ls : (2 <= length sep)%nat -> ls <> [] ->
  (length (join sep ls) + 2 >= fold_right (fun x n => length x + 2 + n)%nat O ls)%nat.
Proof.
  intros Hs. induction ls as [|x ls IH]; [congruence|]. intros _. cbn.
  destruct ls as [|y ls]; [cbn; lia|]. specialize (IH ltac:(congruence)).
  rewrite !app_length. cbn in *. lia.
Qed.

Lemma jsize_le v : (jsize v <= length (dumps v))%nat.
Proof.
  induction v as [|b|z|t|l IH|d IH] using json_ind2.
  - vm_compute; lia.
  - destruct b; vm_compute; lia.
  - cbn [jsize]. destruct (dumps_head (JInt z)) as (c & r & -> & _). cbn; lia.
  - cbn [jsize]. destruct (dumps_head (JStr t)) as (c & r & -> & _). cbn; lia.
  - cbn [jsize dumps]. rewrite !app_length. change (length (s "[")) with 1%nat. change (length (s "]")) with 1%nat.
    destruct l as [|x l]; [cbn; lia|]. remember (x :: l) as l' eqn:El.
    pose proof (@join_length (s ", ") (map dumps l') ltac:(vm_compute; lia) ltac:(subst; cbn; congruence)).
    enough (fold_right (fun x n => S (jsize x) + n)%nat O l' + 1 <= fold_right (fun x n => length x + 2 + n)%nat O (map dumps l'))%nat by lia.
    assert (l' <> []) by congruence. clear El H x l.
    induction IH as [|x l Hx IH1 IH2]; [congruence|]. cbn [fold_right map]. destruct l; [cbn; lia|].
    specialize (IH2 ltac:(congruence)). lia.
  - cbn [jsize dumps]. rewrite !app_length. change (length (s "{")) with 1%nat. change (length (s "}")) with 1%nat.
    destruct d as [|x l]; [cbn; lia|]. remember (x :: l) as l' eqn:El.
    match goal with |- context [map ?f l'] => set (ff := f) end.
    pose proof (@join_length (s ", ") (map ff l') ltac:(vm_compute; lia) ltac:(subst; cbn; congruence)).
    enough (fold_right (fun kv n => S (jsize (snd kv)) + n)%nat O l' + 1 <= fold_right (fun x n => length x + 2 + n)%nat O (map ff l'))%nat by lia.
    assert (l' <> []) by congruence. clear El H x l.
    induction IH as [|x l Hx IH1 IH2]; [congruence|]. cbn [fold_right map].
    assert (jsize (snd x) <= length (ff x))%nat by (unfold ff; rewrite !app_length; lia).
    destruct l; [cbn; lia|]. specialize (IH2 ltac:(congruence)). lia.
Qed.

Definition val_ok (v : json) : Prop :=
  wfj v -> forall f r, (jsize v <= f)%nat -> stop r -> scan_val f (dumps v ++ r) = Ok (v, r).

Lemma scan_elems_ok l : Forall val_ok l -> fold_right (fun x P => wfj x /\ P) True l -> l <> [] ->
  forall f r, (lsize l <= f)%nat -> scan_elems f (join (s ", ") (map dumps l) ++ 93 :: r) = Ok (l, r).
Proof.
  intros Hl. induction Hl as [|x l Hx Hl IH]; [congruence|]. intros [Hwx Hwl] _ f r Hf.
  cbn [lsize fold_right] in Hf. fold (lsize l) in Hf. destruct f as [|f]; [lia|].
  cbn [map join]. destruct l as [|y l].
  - cbn [map scan_elems]. rewrite Hx by (first [assumption|cbn in *; lia]).
    cbn [bind]. change (skip_ws (93 :: r)) with (93 :: r). cbn [drop1 N.eqb Pos.eqb]. reflexivity.
  - remember (y :: l) as yl. assert (map dumps yl <> []) by (subst; cbn; congruence).
    destruct (map dumps yl) as [|z zs] eqn:Ez; [congruence|]. rewrite <- Ez in *.
    change (s ", ") with [44; 32] in *.
    cbn [scan_elems]. rewrite <- !app_assoc. rewrite Hx by (first [assumption|lia|cbn; lia]).
    cbn [bind app].
    match goal with |- context [skip_ws (44 :: ?t)] => change (skip_ws (44 :: t)) with (44 :: t) end.
    cbn [drop1 N.eqb Pos.eqb].
    match goal with |- context [skip_ws (32 :: ?t)] => change (skip_ws (32 :: t)) with (skip_ws t) end.
    assert (Hsk : forall q, skip_ws (join [44; 32] (map dumps yl) ++ q) = join [44; 32] (map dumps yl) ++ q).
    { intros q. subst yl. cbn [map join]. destruct (map dumps l); [apply skip_ws_dumps|].
      rewrite <- app_assoc. apply skip_ws_dumps. }
    rewrite Hsk. rewrite IH by (first [assumption|lia|subst; congruence]). reflexivity.
Qed.

Lemma scan_members_ok d : Forall (fun kv => val_ok (snd kv)) d ->
  fold_right (fun kv P => Forall scalar (fst kv) /\ wfj (snd kv) /\ P) True d -> d <> [] ->
  forall acc f r, NoDup (map fst (acc ++ d)) -> (dsize d <= f)%nat ->
  scan_members f acc (join (s ", ") (map (fun kv => dumps_str (fst kv) ++ s ": " ++ dumps (snd kv)) d) ++ 125 :: r) = Ok (acc ++ d, r).
Proof.
  intros Hl. induction Hl as [|[k v] l Hx Hl IH]; [congruence|]. intros (Hk & Hwx & Hwl) _ acc f r Hnd Hf.
  cbn [fst snd] in *.
  cbn [dsize fold_right snd] in Hf. fold (dsize l) in Hf. destruct f as [|f]; [lia|].
  assert (Hdset : dset acc k v = acc ++ [(k, v)]).
  { apply dset_fresh. unfold dkeys. rewrite map_app in Hnd. cbn in Hnd.
    apply NoDup_remove_2 in Hnd. rewrite in_app_iff in Hnd. tauto. }
  set (ff := fun kv => dumps_str (fst kv) ++ s ": " ++ dumps (snd kv)) in *.
  assert (Hhead : forall q, exists q', ff (k, v) ++ q = 34 :: flat_map esc_char k ++ 34 :: 58 :: 32 :: dumps v ++ q /\ q' = q).
  { intros q. exists q. split; auto. unfold ff, dumps_str. cbn [fst snd]. rewrite <- !app_assoc. reflexivity. }
  assert (Hstep : forall q, stop q ->
    scan_members (S f) acc (ff (k, v) ++ q) =
    match drop1 125 (skip_ws q) with
        | Some r' => Ok (dset acc k v, r')
        | None =>
          match drop1 44 (skip_ws q) with
          | Some r' => scan_members f (dset acc k v) (skip_ws r')
          | None => Err ValueError
          end
        end).
  { intros q Hq. destruct (Hhead q) as (_ & -> & _). cbn [scan_members drop1 N.eqb Pos.eqb].
    rewrite scan_dumps_str by auto. cbn [bind].
    change (skip_ws (58 :: ?t)) with (58 :: t). cbn [skip_ws is_ws N.eqb Pos.eqb orb drop1].
    rewrite skip_ws_dumps, Hx by (first [assumption|lia]). reflexivity. }
  cbn [map join]. destruct l as [|y l].
  - cbn [map]. rewrite Hstep by (cbn; lia). change (skip_ws (125 :: r)) with (125 :: r).
    cbn [drop1 N.eqb Pos.eqb]. now rewrite Hdset.
  - remember (y :: l) as yl. assert (map ff yl <> []) by (subst; cbn; congruence).
    destruct (map ff yl) as [|z zs] eqn:Ez; [congruence|]. rewrite <- Ez in *.
    change (s ", ") with [44; 32] in *.
    rewrite <- !app_assoc. rewrite Hstep by (cbn; lia).
    cbn [app].
    match goal with |- context [skip_ws (44 :: ?t)] => change (skip_ws (44 :: t)) with (44 :: t) end.
    cbn [drop1 N.eqb Pos.eqb].
    match goal with |- context [skip_ws (32 :: ?t)] => change (skip_ws (32 :: t)) with (skip_ws t) end.
    assert (Hsk : forall q, skip_ws (join [44; 32] (map ff yl) ++ q) = join [44; 32] (map ff yl) ++ q).
    { intros q. subst yl. cbn [map join]. destruct (map ff l); unfold ff, dumps_str; rewrite <- !app_assoc; reflexivity. }
    rewrite Hsk, Hdset. rewrite IH by (first [assumption|lia|now rewrite <- app_assoc|subst; congruence]).
    now rewrite <- app_assoc.
Qed.

Lemma scan_val_ok v : val_ok v.
Proof.
  induction v as [|b|z|t|l IH|d IH] using json_ind2; intros Hw f r Hf Hr;
    (destruct f as [|f]; [pose proof (jsize_pos JNull); cbn in *; lia|]).
  - reflexivity.
  - destruct b; reflexivity.
  - cbn [dumps].
    assert (Hh : forall n q, exists c t, digits n ++ q = c :: t /\ is_digit c = true).
    { intros n q. destruct (digits_ok n) as (_ & Hd & (c & t & Heq & _)). rewrite Heq in *. exists c, (t ++ q). split; auto. now inversion Hd. }
    assert (Hpos : forall n, scan_val (S f) (digits n ++ r) = scan_num false (digits n ++ r)).
    { intros n. destruct (Hh n r) as (c & t & -> & Hc). cbn [scan_val].
      assert (Hsw: forall w x ws, w = x :: ws -> c <> x -> startswith (c :: t) w = false).
      { intros w x ws -> Hne. cbn. replace (x =? c) with false by lia. reflexivity. }
      unfold is_digit in Hc.
      replace (c =? 34) with false by lia. replace (c =? 123) with false by lia. replace (c =? 91) with false by lia.
      rewrite (Hsw (s "null") 110 _ eq_refl) by lia. rewrite (Hsw (s "true") 116 _ eq_refl) by lia.
      rewrite (Hsw (s "false") 102 _ eq_refl) by lia. rewrite (Hsw (s "NaN") 78 _ eq_refl) by lia.
      rewrite (Hsw (s "Infinity") 73 _ eq_refl) by lia. rewrite (Hsw (s "-Infinity") 45 _ eq_refl) by lia.
      replace (c =? 45) with false by lia. reflexivity. }
    destruct z as [|p|p]; cbn [zdigits].
    + rewrite Hpos, scan_num_digits by auto. reflexivity.
    + rewrite Hpos, scan_num_digits by auto. reflexivity.
    + cbn [app scan_val]. cbn [N.eqb Pos.eqb].
      destruct (Hh (N.pos p) r) as (c & t & Heq & Hc). rewrite Heq.
      change (startswith (45 :: c :: t) (s "null")) with false.
      change (startswith (45 :: c :: t) (s "true")) with false.
      change (startswith (45 :: c :: t) (s "false")) with false.
      change (startswith (45 :: c :: t) (s "NaN")) with false.
      change (startswith (45 :: c :: t) (s "Infinity")) with false.
      replace (startswith (45 :: c :: t) (s "-Infinity")) with false.
      2:{ symmetry. change (s "-Infinity") with (45 :: 73 :: s "nfinity"). cbn [startswith]. change (45 =? 45) with true.
          unfold is_digit in Hc. replace (73 =? c) with false by lia. reflexivity. }
      rewrite <- Heq, scan_num_digits by auto. reflexivity.
  - cbn [dumps]. unfold dumps_str. rewrite <- !app_assoc. cbn [app scan_val N.eqb Pos.eqb].
    cbn in Hw. rewrite scan_dumps_str by auto. reflexivity.
  - cbn [dumps]. change (s "[") with [91]. change (s "]") with [93]. rewrite <- !app_assoc. cbn [app].
    cbn [scan_val N.eqb Pos.eqb]. destruct l as [|x l].
    + reflexivity.
    + assert (Hsk : skip_ws (join (s ", ") (map dumps (x :: l)) ++ 93 :: r) = join (s ", ") (map dumps (x :: l)) ++ 93 :: r
              /\ drop1 93 (join (s ", ") (map dumps (x :: l)) ++ 93 :: r) = None).
      { cbn [map join]. destruct (map dumps l); rewrite <- ?app_assoc; (split; [apply skip_ws_dumps|apply drop1_dumps; auto]). }
      destruct Hsk as [-> ->]. rewrite scan_elems_ok; auto; [congruence|]. cbn in *; lia.
  - cbn [dumps]. change (s "{") with [123]. change (s "}") with [125]. rewrite <- !app_assoc. cbn [app].
    cbn [scan_val N.eqb Pos.eqb]. destruct d as [|x d].
    + reflexivity.
    + set (ff := fun kv => dumps_str (fst kv) ++ s ": " ++ dumps (snd kv)).
      assert (Hsk : skip_ws (join (s ", ") (map ff (x :: d)) ++ 125 :: r) = join (s ", ") (map ff (x :: d)) ++ 125 :: r
              /\ drop1 125 (join (s ", ") (map ff (x :: d)) ++ 125 :: r) = None).
      { cbn [map join]. destruct (map ff d); unfold ff, dumps_str; rewrite <- ?app_assoc; (split; reflexivity). }
      destruct Hsk as [-> ->]. destruct Hw as [Hnd Hw]. unfold ff. rewrite scan_members_ok; auto; [congruence|]. cbn in *; lia.
Qed.

Lemma loads_dumps v : wfj v -> loads (dumps v) = Ok v.
Proof.
  intros Hw. unfold loads. replace (drop1 65279 (dumps v)) with (@None (list N)).
  2:{ destruct (dumps_head v) as (c & r & -> & Hc). cbn. unfold jhead, is_digit in Hc.
      replace (c =? 65279) with false by lia. reflexivity. }
  rewrite <- (app_nil_r (dumps v)), skip_ws_dumps. rewrite scan_val_ok; [reflexivity|assumption| |exact I].
  rewrite app_nil_r. pose proof (jsize_le v). lia.
Qed.

(** * The decoder's fuel is never the reason of a failure *)
Lemma scan_str_shorter l a b : scan_str l = Ok (a, b) -> (length b < length l)%nat.
Proof.
  assert (Hc : forall c r a b, consR c r = Ok (a, b) -> exists a', r = Ok (a', b)).
  { intros c [[x y]|e] a0 b0 H; cbn in H; [injection H as <- <-; eauto|discriminate]. }
  revert a b. induction l as [l IH] using (well_founded_induction (Wf_nat.well_founded_ltof _ (@length N))).
  intros a b. unfold Wf_nat.ltof in IH. destruct l as [|c r]; cbn [scan_str]; [discriminate|].
  destruct (c =? 34); [intros H; injection H as <- <-; cbn; lia|].
  destruct (c =? 92).
  2:{ destruct (c <? 32); [discriminate|]. intros H. apply Hc in H. destruct H as (a' & H).
      apply IH in H; cbn in *; lia. }
  destruct r as [|e r1]; [discriminate|]. destruct (e =? 117).
  2:{ destruct (unesc e); [|discriminate]. intros H. apply Hc in H. destruct H as (a' & H).
      apply IH in H; cbn in *; lia. }
  destruct r1 as [|h1 [|h2 [|h3 [|h4 r2]]]]; try discriminate.
  destruct (hex4v h1 h2 h3 h4) as [u|]; [|discriminate].
  assert (Hdef : consR u (scan_str r2) = Ok (a, b) -> (length b < length (c :: e :: h1 :: h2 :: h3 :: h4 :: r2))%nat).
  { intros H. apply Hc in H. destruct H as (a' & H). apply IH in H; cbn in *; lia. }
  destruct (is_high u); [|exact Hdef].
  destruct r2 as [|b1 [|u1 [|g1 [|g2 [|g3 [|g4 r3]]]]]]; try exact Hdef.
  destruct ((b1 =? 92) && (u1 =? 117)); [|exact Hdef].
  destruct (hex4v g1 g2 g3 g4) as [lo|]; [|discriminate].
  destruct (is_low lo); [|exact Hdef].
  intros H. apply Hc in H. destruct H as (a' & H). apply IH in H; cbn in *; lia.
Qed.

Lemma scan_str_err l e : scan_str l = Err e -> e = ValueError.
Proof.
  assert (Hc : forall c r e, consR c r = Err e -> r = Err e).
  { intros c [[x y]|e'] e0 H; cbn in H; congruence. }
  revert e. induction l as [l IH] using (well_founded_induction (Wf_nat.well_founded_ltof _ (@length N))).
  intros e0. unfold Wf_nat.ltof in IH. destruct l as [|c r]; cbn [scan_str]; [congruence|].
  destruct (c =? 34); [discriminate|].
  destruct (c =? 92).
  2:{ destruct (c <? 32); [congruence|]. intros H. apply Hc in H. apply IH in H; cbn in *; auto; lia. }
  destruct r as [|e r1]; [congruence|]. destruct (e =? 117).
  2:{ destruct (unesc e); [|congruence]. intros H. apply Hc in H. apply IH in H; cbn in *; auto; lia. }
  destruct r1 as [|h1 [|h2 [|h3 [|h4 r2]]]]; try congruence.
  destruct (hex4v h1 h2 h3 h4) as [u|]; [|congruence].
  assert (Hdef : consR u (scan_str r2) = Err e0 -> e0 = ValueError).
  { intros H. apply Hc in H. apply IH in H; cbn in *; auto; lia. }
  destruct (is_high u); [|exact Hdef].
  destruct r2 as [|b1 [|u1 [|g1 [|g2 [|g3 [|g4 r3]]]]]]; try exact Hdef.
  destruct ((b1 =? 92) && (u1 =? 117)); [|exact Hdef].
  destruct (hex4v g1 g2 g3 g4) as [lo|]; [|congruence].
  destruct (is_low lo); [|exact Hdef].
  intros H. apply Hc in H. apply IH in H; cbn in *; auto; lia.
Qed.

Lemma skip_ws_len l : (length (skip_ws l) <= length l)%nat.
Proof. induction l as [|c l IH]; cbn; auto. destruct (is_ws c); cbn; lia. Qed.
Lemma drop1_len c l r : drop1 c l = Some r -> length l = S (length r).
Proof. destruct l as [|x l]; cbn; [discriminate|]. destruct (x =? c); [|discriminate]. now intros [= ->]. Qed.

Lemma scan_num_len neg l v r : scan_num neg l = Ok (v, r) -> (length r < length l)%nat.
Proof.
  destruct l as [|c l]; cbn [scan_num]; [discriminate|]. destruct (c =? 48).
  - destruct (float_tail l); [discriminate|]. intros [= <- <-]. cbn; lia.
  - destruct (is_digit c) eqn:Hd; [|discriminate]. pose proof (take_digits_length l) as H.
    cbn [take_digits]. rewrite Hd. destruct (take_digits l) as [a b]. cbn in H.
    destruct (float_tail b); [discriminate|]. intros [= <- <-]. cbn; lia.
Qed.
Lemma scan_num_nofuel neg l : scan_num neg l <> Err EFuel.
Proof.
  destruct l as [|c l]; cbn [scan_num]; [discriminate|]. destruct (c =? 48).
  - destruct (float_tail l); discriminate.
  - destruct (is_digit c); [|discriminate]. destruct (take_digits (c :: l)) as [a b].
    destruct (float_tail b); discriminate.
Qed.

Lemma scan_fuel f :
  (forall l, (2 * length l + 1 <= f)%nat -> scan_val f l <> Err EFuel
      /\ forall v r, scan_val f l = Ok (v, r) -> (length r < length l)%nat) /\
  (forall l, (2 * length l + 2 <= f)%nat -> scan_elems f l <> Err EFuel
      /\ forall v r, scan_elems f l = Ok (v, r) -> (length r < length l)%nat) /\
  (forall a l, (2 * length l + 2 <= f)%nat -> scan_members f a l <> Err EFuel
      /\ forall v r, scan_members f a l = Ok (v, r) -> (length r < length l)%nat).
Proof.
  induction f as [|f (IHv & IHe & IHm)]; (split; [|split]).
  1-3: intros; lia.
  - intros l Hl. cbn [scan_val]. destruct l as [|c r]; [split; discriminate|].
    cbn [length] in Hl. pose proof (skip_ws_len r) as Hs.
    destruct (c =? 34).
    { destruct (scan_str r) as [[t r']|e] eqn:E; cbn [bind].
      - apply scan_str_shorter in E. split; [discriminate|]. intros v q [= <- <-]. cbn; lia.
      - apply scan_str_err in E. subst. split; discriminate. }
    destruct (c =? 123).
    { destruct (drop1 125 (skip_ws r)) eqn:E.
      - apply drop1_len in E. split; [discriminate|]. intros v q [= <- <-]. cbn; lia.
      - destruct (IHm [] (skip_ws r)) as [H1 H2]; [lia|].
        destruct (scan_members f [] (skip_ws r)) as [[d r']|e]; cbn [bind].
        + split; [discriminate|]. intros v q [= <- <-]. specialize (H2 _ _ eq_refl). cbn; lia.
        + split; [congruence|discriminate]. }
    destruct (c =? 91).
    { destruct (drop1 93 (skip_ws r)) eqn:E.
      - apply drop1_len in E. split; [discriminate|]. intros v q [= <- <-]. cbn; lia.
      - destruct (IHe (skip_ws r)) as [H1 H2]; [lia|].
        destruct (scan_elems f (skip_ws r)) as [[d r']|e]; cbn [bind].
        + split; [discriminate|]. intros v q [= <- <-]. specialize (H2 _ _ eq_refl). cbn; lia.
        + split; [congruence|discriminate]. }
    assert (Hsk : forall n, (length (skipn (S n) (c :: r)) < length (c :: r))%nat).
    { intros n. cbn [skipn]. rewrite skipn_length. cbn [length]. lia. }
    destruct (startswith (c :: r) (s "null")); [split; [discriminate|]; intros v q [= <- <-]; apply (Hsk 3%nat)|].
    destruct (startswith (c :: r) (s "true")); [split; [discriminate|]; intros v q [= <- <-]; apply (Hsk 3%nat)|].
    destruct (startswith (c :: r) (s "false")); [split; [discriminate|]; intros v q [= <- <-]; apply (Hsk 4%nat)|].
    destruct (startswith (c :: r) (s "NaN")); [split; discriminate|].
    destruct (startswith (c :: r) (s "Infinity")); [split; discriminate|].
    destruct (startswith (c :: r) (s "-Infinity")); [split; discriminate|].
    destruct (c =? 45).
    + split; [apply scan_num_nofuel|]. intros v q H. apply scan_num_len in H. cbn; lia.
    + split; [apply scan_num_nofuel|]. intros v q H. apply scan_num_len in H. cbn in *; lia.
  - intros l Hl. cbn [scan_elems]. destruct (IHv l) as [H1 H2]; [lia|].
    destruct (scan_val f l) as [[v r]|e]; cbn [bind]; [|split; [congruence|discriminate]].
    specialize (H2 _ _ eq_refl). pose proof (skip_ws_len r) as Hs.
    destruct (drop1 93 (skip_ws r)) eqn:E.
    { apply drop1_len in E. split; [discriminate|]. intros v' q [= <- <-]. lia. }
    destruct (drop1 44 (skip_ws r)) as [r'|] eqn:E2; [|split; discriminate].
    apply drop1_len in E2. pose proof (skip_ws_len r').
    destruct (IHe (skip_ws r')) as [H3 H4]; [lia|].
    destruct (scan_elems f (skip_ws r')) as [[d q]|e]; cbn [bind].
    + split; [discriminate|]. intros v' q' [= <- <-]. specialize (H4 _ _ eq_refl). lia.
    + split; [congruence|discriminate].
  - intros a l Hl. cbn [scan_members]. destruct (drop1 34 l) as [r0|] eqn:E0; [|split; discriminate].
    apply drop1_len in E0.
    destruct (scan_str r0) as [[t r']|e] eqn:E; cbn [bind].
    2:{ apply scan_str_err in E. subst. split; discriminate. }
    apply scan_str_shorter in E. pose proof (skip_ws_len r').
    destruct (drop1 58 (skip_ws r')) as [r1|] eqn:E1; [|split; discriminate]. apply drop1_len in E1.
    pose proof (skip_ws_len r1).
    destruct (IHv (skip_ws r1)) as [H1 H2]; [lia|].
    destruct (scan_val f (skip_ws r1)) as [[v r2]|e]; cbn [bind]; [|split; [congruence|discriminate]].
    specialize (H2 _ _ eq_refl). pose proof (skip_ws_len r2).
    destruct (drop1 125 (skip_ws r2)) eqn:E3.
    { apply drop1_len in E3. split; [discriminate|]. intros v' q [= <- <-]. lia. }
    destruct (drop1 44 (skip_ws r2)) as [r3|] eqn:E4; [|split; discriminate].
    apply drop1_len in E4. pose proof (skip_ws_len r3).
    destruct (IHm (dset a t v) (skip_ws r3)) as [H5 H6]; [lia|].
    split; auto. intros v' q' Hq. specialize (H6 _ _ Hq). lia.
Qed.

Lemma loads_nofuel l : loads l <> Err EFuel.
Proof.
  unfold loads. destruct (drop1 65279 l); [discriminate|]. pose proof (skip_ws_len l).
  destruct (scan_fuel (2 * length l + 2)) as (Hv & _).
  destruct (Hv (skip_ws l)) as [H1 _]; [lia|].
  destruct (scan_val _ _) as [[v r]|e]; cbn [bind].
  - destruct (skip_ws r); discriminate.
  - congruence.
Qed.
