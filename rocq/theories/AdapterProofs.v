From Verif Require Import PyBase PyDict Digits JsonModel JsonProofs MsgBase MsgTables MsgModel MsgSpec MsgProofs MsgProofs2 MsgProofs3 MsgProofs4 AdapterModel.
From Coq Require Import ZifyBool ZifyNat ZifyN.
Ltac Zify.zify_post_hook ::= Z.div_mod_to_equations.
Local Open Scope N_scope.

(** * UTF-8 on ASCII *)
Lemma utf8_encode_ascii t : Forall (fun c => c < 128) t -> utf8_encode t = Ok t.
Proof.
  intros H. unfold utf8_encode. rewrite (mapM_ok _ (fun c => [c])).
  - cbn [bind]. f_equal. clear H. induction t; cbn; congruence.
  - intros x Hx. rewrite Forall_forall in H. specialize (H x Hx). unfold utf8_enc1.
    destruct (x <? 128) eqn:E; [reflexivity|lia].
Qed.
Lemma utf8_dec_ascii t : Forall (fun c => c < 128) t -> forall f, (length t <= f)%nat -> utf8_dec f t = Ok t.
Proof.
  induction 1 as [|c t Hc Ht IH]; intros f Hf; [destruct f; reflexivity|]. cbn [length] in Hf. destruct f as [|f]; [lia|].
  cbn [utf8_dec]. destruct (c <? 128) eqn:E; [|lia]. rewrite IH by lia. reflexivity.
Qed.
Lemma utf8_decode_ascii t : Forall (fun c => c < 128) t -> utf8_decode t = Ok t.
Proof. intros H. apply utf8_dec_ascii; auto. Qed.

Lemma plain_lt l : Forall plain l -> Forall (fun c => c < 128) l.
Proof. apply Forall_impl. unfold plain. lia. Qed.

(** * find / split *)
Lemma startswith_app p r : startswith (p ++ r) p = true.
Proof. apply startswith_spec. eauto. Qed.
Lemma startswith_head c l p x : p = c :: x -> startswith l p = true -> exists r, l = c :: r.
Proof. intros -> H. apply startswith_spec in H. destruct H as (r & ->). cbn. eauto. Qed.

Lemma find_sub_app sep a r c x : sep = c :: x -> ~ In c a -> find_sub sep (a ++ sep ++ r) = Some (a, r).
Proof.
  intros Hs Hn. induction a as [|b a IH].
  - cbn [app]. rewrite Hs. cbn [find_sub app]. rewrite <- Hs. change (c :: x ++ r) with ((c :: x) ++ r). rewrite <- Hs. rewrite startswith_app.
    rewrite skipn_app, skipn_all, Nat.sub_diag. reflexivity.
  - cbn [app find_sub].
    destruct (startswith (b :: a ++ sep ++ r) sep) eqn:E.
    + exfalso. destruct (startswith_head _ _ _ _ Hs E) as (r0 & E0). injection E0 as -> _. apply Hn; left; auto.
    + rewrite IH; [reflexivity|]. intros H; apply Hn; right; auto.
Qed.
Lemma find_sub_none sep a c x : sep = c :: x -> ~ In c a -> find_sub sep a = None.
Proof.
  intros Hs Hn. induction a as [|b a IH].
  - rewrite Hs. reflexivity.
  - cbn [find_sub]. destruct (startswith (b :: a) sep) eqn:E.
    + exfalso. destruct (startswith_head _ _ _ _ Hs E) as (r0 & E0). injection E0 as -> _. apply Hn; left; auto.
    + rewrite IH; [reflexivity|]. intros H; apply Hn; right; auto.
Qed.
(** what find_sub means *)
Lemma find_sub_sound sep l a b : find_sub sep l = Some (a, b) -> l = a ++ sep ++ b.
Proof.
  revert a b. induction l as [|c l IH]; intros a b H; cbn [find_sub] in H.
  - destruct (startswith [] sep) eqn:E; [|discriminate]. apply startswith_spec in E. destruct E as (r & E).
    symmetry in E. apply app_eq_nil in E. destruct E as [-> ->]. injection H as <- <-. reflexivity.
  - destruct (startswith (c :: l) sep) eqn:E.
    + injection H as <- <-. apply startswith_spec in E. destruct E as (r & ->). rewrite skipn_app, skipn_all, Nat.sub_diag. reflexivity.
    + destruct (find_sub sep l) as [[a0 b0]|] eqn:Ef; [|discriminate]. injection H as <- <-.
      rewrite (IH _ _ eq_refl). reflexivity.
Qed.

(** a strict prefix of the header block plus separator has no separator *)
Lemma find_sub_short h l : ~ In 13 h -> (exists r, r <> [] /\ h ++ crlf2 = l ++ r) -> find_sub crlf2 l = None.
Proof.
  intros Hn (r & Hr & E).
  destruct (find_sub crlf2 l) as [[a b]|] eqn:Ef; auto. exfalso.
  apply find_sub_sound in Ef. subst l.
  assert (Hf : find_sub crlf2 (h ++ crlf2 ++ []) = Some (h, [])) by (apply (find_sub_app crlf2 h [] 13 [10; 13; 10]); auto).
  rewrite app_nil_r in Hf.
  assert (La : (length a < length h)%nat).
  { apply (f_equal (@length N)) in E. rewrite !app_length in E. cbn [length crlf2] in E. destruct r; [congruence|]. cbn [length] in E. lia. }
  apply Hn. rewrite <- !app_assoc in E.
  assert (Ea : firstn (length h) (h ++ crlf2) = h) by (rewrite firstn_app, Nat.sub_diag, firstn_all, firstn_O, app_nil_r; auto).
  rewrite E in Ea. rewrite <- Ea. replace (length h) with (length a + S (length h - S (length a)))%nat by lia.
  rewrite firstn_app_2. apply in_app_iff. right. left. reflexivity.
Qed.

(** * Headers *)
Lemma strip_l_digit l : Forall (fun c => is_digit c = true) l -> strip_l l = l.
Proof.
  destruct 1 as [|c l Hc Hl]; auto. cbn [strip_l]. unfold is_digit in Hc. unfold is_bspace.
  destruct ((c =? 32) || ((9 <=? c) && (c <=? 13))) eqn:E; auto. lia.
Qed.
Lemma strip_ws_digits l : Forall (fun c => is_digit c = true) l -> strip_ws l = l.
Proof.
  intros H. unfold strip_ws. rewrite (strip_l_digit l) by exact H. rewrite strip_l_digit by (now apply Forall_rev). apply rev_involutive.
Qed.
Lemma int_digits_val l : Forall (fun c => is_digit c = true) l -> forall acc p, (l <> [] \/ p = true) ->
  int_digits p acc l = Some (fold_left (fun a d => a * 10 + (d - 48)) l acc).
Proof.
  induction 1 as [|c l Hc Hl IH]; intros acc p Hp; cbn [int_digits fold_left].
  - destruct Hp as [Hp| ->]; [congruence|reflexivity].
  - rewrite Hc. apply IH. auto.
Qed.
Lemma py_int_digits n : py_int (digits n) = Ok (Z.of_N n).
Proof.
  destruct (digits_ok n) as (Hv & Hd & d & r & Hr & _). unfold py_int. rewrite strip_ws_digits by auto.
  rewrite Hr in *. assert (Hd0 : is_digit d = true) by (inversion Hd; auto).
  replace (d =? 45) with false by (unfold is_digit in Hd0; lia).
  replace (d =? 43) with false by (unfold is_digit in Hd0; lia).
  rewrite int_digits_val by (first [assumption|left; discriminate]). unfold val_digits in Hv. rewrite Hv. reflexivity.
Qed.

Definition header (n : N) : list N := s "Content-Length: " ++ digits n.
Lemma digits_range n : Forall (fun c => 48 <= c <= 57) (digits n).
Proof. destruct (digits_ok n) as (_ & Hd & _). eapply Forall_impl; [|exact Hd]. unfold is_digit. cbn beta. lia. Qed.
Lemma header_plain n : Forall plain (header n).
Proof.
  unfold header. apply Forall_app. split; [plain_lit|]. eapply Forall_impl; [|apply digits_range]. unfold plain. cbn beta. lia.
Qed.
Lemma plain_no13 l : Forall plain l -> ~ In 13 l.
Proof. rewrite Forall_forall. intros H Hi. specialize (H _ Hi). unfold plain in H. lia. Qed.

Lemma content_length_header n : content_length (header n) = Ok (Z.of_N n).
Proof.
  unfold content_length, parse_headers, split_all.
  assert (Hl : exists k, length (header n) = S k) by (unfold header; destruct (s "Content-Length: " ++ digits n) eqn:E; [exfalso; revert E; vm_compute; discriminate|cbn [length]; eauto]).
  destruct Hl as (k & Hl). rewrite Hl. cbn [split_max].
  rewrite (find_sub_none crlf _ 13 [10]) by (first [reflexivity|apply plain_no13, header_plain]).
  rewrite mapM_cons, mapM_nil.
  assert (Hp : header_pair (header n) = Ok (content_length_name, digits n)).
  { unfold header_pair, header. change (s "Content-Length: ") with (content_length_name ++ s ": "). rewrite <- app_assoc.
    cbn [split_max].
    rewrite (find_sub_app (s ": ") content_length_name (digits n) 58 [32]); [|reflexivity|].
    2:{ unfold content_length_name. vm_compute. intros H. repeat destruct H as [H|H]; try discriminate; tauto. }
    rewrite (find_sub_none (s ": ") (digits n) 58 [32]); [reflexivity|reflexivity|].
    intros Hi. pose proof (digits_range n) as Hr. rewrite Forall_forall in Hr. specialize (Hr _ Hi). lia. }
  rewrite Hp. cbn [bind fold_left dset dget fst snd]. rewrite eqb_refl. apply py_int_digits.
Qed.

(** * next_message on a buffer that starts with a header block *)
Lemma slice_mid {A} (a b c : list A) : slice (a ++ b ++ c) (Z.of_nat (length a)) (Z.of_nat (length a) + Z.of_nat (length b)) = b.
Proof.
  unfold slice, slice_idx. rewrite !app_length.
  replace (Z.to_nat _) with (length a) by (destruct (Z.of_nat (length a) <? 0)%Z eqn:E; lia).
  replace (Z.to_nat _) with (length a + length b)%nat by (destruct (Z.of_nat (length a) + Z.of_nat (length b) <? 0)%Z eqn:E; lia).
  rewrite firstn_app_2, firstn_app, Nat.sub_diag, firstn_all, firstn_O, app_nil_r.
  rewrite skipn_app, skipn_all, Nat.sub_diag. reflexivity.
Qed.
Lemma slice_from_mid {A} (a b : list A) z : z = Z.of_nat (length a) -> slice_from (a ++ b) z = b.
Proof.
  intros ->. unfold slice_from, slice_idx. rewrite app_length.
  replace (Z.to_nat _) with (length a) by (destruct (Z.of_nat (length a) <? 0)%Z eqn:E; lia).
  rewrite skipn_app, skipn_all, Nat.sub_diag. reflexivity.
Qed.

Definition finish (c : conn) (rest : bytes) (r : res pval) : res (option pval) * conn :=
  match r with
  | Err e => (Err e, mkConn (out c) rest (seq_in c) (seq_out c))
  | Ok msg =>
    (match get_attr msg (s "seq") with
     | Err e => Err e
     | Ok q => if seq_eqb (seq_in c) q then Ok (Some msg) else Err ValueError
     end, mkConn (out c) rest (seq_in c + 1) (seq_out c))
  end.
Lemma next_complete c hdr after len body rest :
  find_sub crlf2 (inb c) = Some (hdr, after) -> content_length hdr = Ok len ->
  after = body ++ rest -> len = Z.of_nat (length body) ->
  next_message c = finish c rest (decode_body body).
Proof.
  intros Hf Hc Ha Hl. pose proof (find_sub_sound _ _ _ _ Hf) as Hb. unfold next_message. rewrite Hf, Hc.
  set (hi := (Z.of_nat (length hdr) + 4)%Z).
  assert (Hhi : hi = Z.of_nat (length (hdr ++ crlf2))) by (rewrite app_length; cbn [length crlf2]; lia).
  assert (Hbuf : inb c = (hdr ++ crlf2) ++ body ++ rest) by (rewrite <- app_assoc, Hb, Ha; reflexivity).
  replace (Z.of_nat (length (inb c)) - hi <? len)%Z with false.
  2:{ symmetry. rewrite Hbuf, !app_length in *. cbn [length crlf2] in *. lia. }
  rewrite Hl, Hhi, Hbuf, slice_mid.
  assert (Hsf : slice_from ((hdr ++ crlf2) ++ body ++ rest) (Z.of_nat (length (hdr ++ crlf2)) + Z.of_nat (length body)) = rest).
  { rewrite app_assoc. apply slice_from_mid. rewrite (app_length (hdr ++ crlf2) body). lia. }
  rewrite Hsf. unfold finish. cbn [inb out seq_in seq_out].
  destruct (decode_body body) as [msg|e]; [|reflexivity].
  destruct (get_attr msg (s "seq")) as [q|e]; [|reflexivity]. destruct (seq_eqb (seq_in c) q); reflexivity.
Qed.
Lemma next_incomplete c hdr after len :
  find_sub crlf2 (inb c) = Some (hdr, after) -> content_length hdr = Ok len -> (Z.of_nat (length after) < len)%Z ->
  next_message c = (Ok None, c).
Proof.
  intros Hf Hc Hl. pose proof (find_sub_sound _ _ _ _ Hf) as Hb. unfold next_message. rewrite Hf, Hc.
  replace (Z.of_nat (length (inb c)) - (Z.of_nat (length hdr) + 4) <? len)%Z with true; [reflexivity|].
  symmetry. rewrite Hb, !app_length. cbn [length crlf2]. lia.
Qed.

(** * Frames *)
Definition frame_bytes (body : list N) : list N := header (N.of_nat (length body)) ++ crlf2 ++ body.
Lemma frame_of_ok v j : enc v = Ok j -> cpj j -> frame_of v = Ok (frame_bytes (dumps j)).
Proof.
  intros He Hc. unfold frame_of. rewrite He. cbn [bind].
  rewrite (app_assoc (s "Content-Length: ")). apply utf8_encode_ascii.
  apply Forall_app. split; [apply plain_lt, header_plain|]. apply Forall_app. split; [repeat constructor|apply plain_lt, dumps_plain, Hc].
Qed.

Lemma next_frame c body rest : inb c = frame_bytes body ++ rest ->
  next_message c = finish c rest (decode_body body).
Proof.
  intros Hb. unfold frame_bytes in Hb. rewrite <- !app_assoc in Hb.
  eapply next_complete with (hdr := header (N.of_nat (length body))) (after := body ++ rest).
  - rewrite Hb. apply (find_sub_app crlf2 _ _ 13 [10; 13; 10]); [reflexivity|apply plain_no13, header_plain].
  - apply content_length_header.
  - reflexivity.
  - lia.
Qed.
Lemma next_prefix c body r : r <> [] -> inb c ++ r = frame_bytes body -> next_message c = (Ok None, c).
Proof.
  intros Hr Hb. unfold frame_bytes in Hb. rewrite app_assoc in Hb.
  set (h := header (N.of_nat (length body))) in *.
  destruct (Nat.lt_ge_cases (length (inb c)) (length (h ++ crlf2))) as [Hlt|Hge].
  - unfold next_message. rewrite (find_sub_short h (inb c)); [reflexivity|apply plain_no13, header_plain|].
    exists (skipn (length (inb c)) (h ++ crlf2)). split.
    + intros E. apply (f_equal (@length N)) in E. rewrite skipn_length in E. cbn [length] in E. lia.
    + assert (E : firstn (length (inb c)) (h ++ crlf2) = inb c).
      { apply (f_equal (firstn (length (inb c)))) in Hb. rewrite firstn_app, Nat.sub_diag, firstn_all, firstn_O, app_nil_r in Hb.
        rewrite firstn_app in Hb. replace (length (inb c) - length (h ++ crlf2))%nat with O in Hb by lia.
        rewrite firstn_O, app_nil_r in Hb. auto. }
      etransitivity; [symmetry; apply (firstn_skipn (length (inb c)))|]. now rewrite E.
  - assert (E : exists b1, inb c = (h ++ crlf2) ++ b1 /\ b1 ++ r = body).
    { exists (skipn (length (h ++ crlf2)) (inb c)).
      assert (E1 : firstn (length (h ++ crlf2)) (inb c) = h ++ crlf2).
      { apply (f_equal (firstn (length (h ++ crlf2)))) in Hb. rewrite firstn_app in Hb.
        replace (length (h ++ crlf2) - length (inb c))%nat with O in Hb by lia. rewrite firstn_O, app_nil_r in Hb.
        rewrite firstn_app, Nat.sub_diag, firstn_all, firstn_O, app_nil_r in Hb. exact Hb. }
      split; [etransitivity; [symmetry; apply (firstn_skipn (length (h ++ crlf2)))|]; now rewrite E1|].
      apply (f_equal (skipn (length (h ++ crlf2)))) in Hb. rewrite (skipn_app _ (inb c)), (skipn_app _ (h ++ crlf2) body), skipn_all, Nat.sub_diag in Hb.
      replace (length (h ++ crlf2) - length (inb c))%nat with O in Hb by lia. exact Hb. }
    destruct E as (b1 & E1 & E2).
    eapply next_incomplete with (hdr := h) (after := b1).
    + rewrite E1, <- app_assoc. apply (find_sub_app crlf2 _ _ 13 [10; 13; 10]); [reflexivity|apply plain_no13, header_plain].
    + apply content_length_header.
    + rewrite <- E2, app_length. destruct r; [congruence|]. cbn [length]. lia.
Qed.

Lemma frame_nonempty body : frame_bytes body <> [].
Proof. unfold frame_bytes, header. vm_compute. discriminate. Qed.
