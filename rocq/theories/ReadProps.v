(** C03 for arbitrary clients, C62, C63: cutting the input and the log level. *)
From Verif Require Import PyBase PyDict JsonModel MsgBase MsgModel JsonProofs AdapterModel AdapterSpec AdapterProofs AdapterProofs2 HeaderSpec HeaderProofs ReadModel.
Set Implicit Arguments.
Local Open Scope N_scope.

(* ------------------------------------------------------------------ specification *)
(** From its first byte on, every header block of the stream that the messages before it
    lead to has a Content-Length that is not negative (or none, or a malformed one). *)
Inductive no_negative : bytes -> Prop :=
| nn_open b : ~ occurs [13; 10; 13; 10] b -> no_negative b
| nn_bad b hdr after : first_at [13; 10; 13; 10] b hdr after -> (forall z, ~ declares_length hdr z) -> no_negative b
| nn_short b hdr after n : first_at [13; 10; 13; 10] b hdr after -> declares_length hdr n -> (Z.of_nat (length after) < n)%Z -> no_negative b
| nn_frame b hdr body rest : first_at [13; 10; 13; 10] b hdr (body ++ rest) -> declares_length hdr (Z.of_nat (length body)) -> no_negative rest -> no_negative b.
(** A header block (without CR LF CR LF in it) that announces [n] bytes. *)
Definition announces (hdr : bytes) (n : nat) : Prop := first_at [13; 10; 13; 10] (hdr ++ [13; 10; 13; 10]) hdr [] /\ declares_length hdr (Z.of_nat n).
(** The bytes of a frame. *)
Definition wire_of (fr : bytes * bytes) : bytes := fst fr ++ [13; 10; 13; 10] ++ snd fr.
(** Its body is the UTF-8 encoded JSON text of message [m] with number [k]. *)
Definition carries (fr : bytes * bytes) (k : Z) (m : pval) : Prop :=
  announces (fst fr) (length (snd fr)) /\ decode_body (snd fr) = Ok m /\ get_attr m (s "seq") = Ok (PInt k).
Inductive carry : Z -> list (bytes * bytes) -> list pval -> Prop :=
| carry_nil k : carry k [] []
| carry_cons k fr frs m ms : carries fr k m -> carry (k + 1) frs ms -> carry k (fr :: frs) (m :: ms).

(* ------------------------------------------------------------------ the code's own terms *)
Inductive sane : bytes -> Prop :=
| sane_open b : find_sub crlf2 b = None -> sane b
| sane_bad b hdr after e : find_sub crlf2 b = Some (hdr, after) -> content_length hdr = Err e -> sane b
| sane_short b hdr after n : find_sub crlf2 b = Some (hdr, after) -> content_length hdr = Ok n -> (Z.of_nat (length after) < n)%Z -> sane b
| sane_frame b hdr body rest : find_sub crlf2 b = Some (hdr, body ++ rest) -> content_length hdr = Ok (Z.of_nat (length body)) -> sane rest -> sane b.
Lemma occurs_none sep l : ~ occurs sep l <-> find_sub sep l = None.
Proof.
  destruct (find_sub sep l) as [[a b]|] eqn:F.
  - split; [|discriminate]. intros H. apply find_sub_sound in F. destruct H. exists a, b. auto.
  - split; [reflexivity|]. intros _. exact (find_none _ _ F).
Qed.
Lemma no_negative_sane b : no_negative b -> sane b.
Proof.
  induction 1 as [b O|b hdr after F D|b hdr after n F D L|b hdr body rest F D N IH].
  - apply sane_open. now apply occurs_none.
  - apply find_first_iff in F. destruct (content_length hdr) as [z|e] eqn:E; [|eapply sane_bad; eauto]. apply content_length_spec in E. destruct (D _ E).
  - apply find_first_iff in F. apply content_length_spec in D. eapply sane_short; eauto.
  - apply find_first_iff in F. apply content_length_spec in D. eapply sane_frame; eauto.
Qed.

(* ------------------------------------------------------------------ proofs *)
Ltac csplit := repeat match goal with |- _ /\ _ => split end.
Lemma startswith_long p : forall l x, (length p <= length l)%nat -> startswith (l ++ x) p = startswith l p.
Proof.
  induction p as [|a p IH]; intros [|b l] x L; cbn in *; try reflexivity; [lia|]. rewrite IH by lia. reflexivity.
Qed.
Lemma find_sub_long sep : forall l a r, find_sub sep l = Some (a, r) -> (length sep <= length l)%nat.
Proof. intros l a r H. apply find_sub_sound in H. subst. rewrite !app_length. lia. Qed.
Lemma find_sub_mono sep x : forall l a r, find_sub sep l = Some (a, r) -> find_sub sep (l ++ x) = Some (a, r ++ x).
Proof.
  induction l as [|c l IH]; intros a r H; pose proof (find_sub_long _ _ H) as L.
  - cbn in H. destruct (startswith [] sep) eqn:S; [|discriminate]. destruct sep; [|discriminate]. injection H as <- <-. cbn. now destruct x.
  - change (find_sub sep (c :: l)) with (if startswith (c :: l) sep then Some ([], skipn (length sep) (c :: l)) else match find_sub sep l with Some (a, b) => Some (c :: a, b) | None => None end) in H.
    change (find_sub sep ((c :: l) ++ x)) with (if startswith ((c :: l) ++ x) sep then Some ([], skipn (length sep) ((c :: l) ++ x)) else match find_sub sep (l ++ x) with Some (a, b) => Some (c :: a, b) | None => None end).
    rewrite startswith_long by exact L. destruct (startswith (c :: l) sep) eqn:S.
    + injection H as <- <-. rewrite skipn_app. replace (length sep - length (c :: l))%nat with 0%nat by lia. reflexivity.
    + destruct (find_sub sep l) as [[a' b']|] eqn:F; [|discriminate]. injection H as <- <-. erewrite IH by reflexivity. reflexivity.
Qed.

Definition grow (x : bytes) (c : conn) : conn := mkConn (out c) (inb c ++ x) (seq_in c) (seq_out c).
Lemma grow_nil c : grow [] c = c.
Proof. destruct c. unfold grow. cbn. now rewrite app_nil_r. Qed.
Lemma grow_grow x y c : grow y (grow x c) = grow (x ++ y) c.
Proof. unfold grow. cbn. now rewrite app_assoc. Qed.

(** What next_message does on a sane buffer. *)
Inductive outcome (c : conn) : res (option pval) * conn -> Prop :=
| O_wait : outcome c (Ok None, c)
| O_bad e : (forall x, next_message (grow x c) = (Err e, grow x c)) -> outcome c (Err e, c)
| O_frame hdr body rest : find_sub crlf2 (inb c) = Some (hdr, body ++ rest) -> content_length hdr = Ok (Z.of_nat (length body)) -> (forall x, next_message (grow x c) = finish (grow x c) (rest ++ x) (decode_body body)) ->
    outcome c (finish c rest (decode_body body)).
Lemma next_sane c : sane (inb c) -> outcome c (next_message c).
Proof.
  intros S. inversion S as [b F|b hdr after e F E|b hdr after n F E L|b hdr body rest F E S']; subst b.
  - replace (next_message c) with (Ok (@None pval), c) by (unfold next_message; now rewrite F). constructor.
  - assert (K : forall x, next_message (grow x c) = (Err e, grow x c)).
    { intros x. unfold next_message, grow. cbn [inb]. rewrite (find_sub_mono _ x _ F). now rewrite E. }
    pose proof (K []) as K0. rewrite grow_nil in K0. rewrite K0. now constructor.
  - erewrite next_incomplete by eauto. constructor.
  - erewrite next_complete by eauto. eapply O_frame; [exact F|exact E|].
    intros x. eapply next_complete; [cbn [grow inb]; exact (find_sub_mono _ x _ F)|exact E|symmetry; apply app_assoc|reflexivity].
Qed.
Lemma sane_rest b hdr body rest : sane b -> find_sub crlf2 b = Some (hdr, body ++ rest) -> content_length hdr = Ok (Z.of_nat (length body)) -> sane rest.
Proof.
  intros S F E. inversion S as [b0 G|b0 h a e G E'|b0 h a k G E' L|b0 h body' rest' G E' S']; subst b0; rewrite F in G; try discriminate.
  - injection G as <- <-. congruence.
  - injection G as <- <-. rewrite E in E'. injection E' as <-. rewrite app_length in L. lia.
  - injection G as <- Q. rewrite E in E'. injection E' as E'. apply Nat2Z.inj in E'.
    assert (body = body' /\ rest = rest') as (_ & ->); [|exact S'].
    apply (f_equal (fun l => (firstn (length body) l, skipn (length body) l))) in Q. rewrite E' in Q at 3 4. rewrite !firstn_app, !skipn_app, !firstn_all, !skipn_all, !Nat.sub_diag in Q. cbn in Q. rewrite !app_nil_r in Q. now injection Q.
Qed.
Lemma sane_pre x : forall b, sane (b ++ x) -> sane b.
Proof.
  intros b. remember (length b) as n eqn:N. revert b N. induction n as [n IH] using (well_founded_induction lt_wf). intros b -> S.
  destruct (find_sub crlf2 b) as [[hdr after]|] eqn:F; [|now apply sane_open].
  pose proof (find_sub_mono _ x _ F) as F'.
  inversion S as [b0 G|b0 h a e G E|b0 h a k G E L|b0 h body rest G E S']; subst b0; rewrite G in F'; try discriminate; injection F' as -> Q.
  - eapply sane_bad; eauto.
  - subst a. eapply sane_short; eauto. rewrite app_length in L. lia.
  - destruct (le_lt_dec (length body) (length after)) as [L|L].
    + assert (exists r, after = body ++ r) as (r & ->).
      { exists (skipn (length body) after). rewrite <- (firstn_skipn (length body) after) at 1. f_equal.
        apply (f_equal (firstn (length body))) in Q. rewrite !firstn_app, firstn_all, Nat.sub_diag, firstn_O, app_nil_r in Q.
        replace (length body - length after)%nat with 0%nat in Q by lia. rewrite firstn_O, app_nil_r in Q. now symmetry. }
      rewrite <- app_assoc in Q. apply app_inv_head in Q. subst rest.
      eapply sane_frame; eauto. eapply IH; eauto. apply find_sub_sound in F. subst b. rewrite !app_length. cbn [length crlf2]. lia.
    + eapply sane_short; eauto. lia.
Qed.
Lemma inb_finish c rest r : inb (snd (AdapterProofs.finish c rest r)) = rest.
Proof. destruct r; reflexivity. Qed.
Lemma finish_grow c rest x r : AdapterProofs.finish (grow x c) (rest ++ x) r = (fst (AdapterProofs.finish c rest r), grow x (snd (AdapterProofs.finish c rest r))).
Proof. destruct r; reflexivity. Qed.
Lemma finish_ok c rest r : fst (AdapterProofs.finish c rest r) <> Ok None.
Proof. destruct r as [m|e]; cbn; [|discriminate]. destruct (get_attr m (s "seq")); cbn; [|discriminate]. destruct (seq_eqb _ _); discriminate. Qed.

(** Handling everything that is there first does not matter. *)
Lemma handle_grow x : forall f c, sane (inb c ++ x) -> (length (inb c) < f)%nat ->
  forall f', (length (inb c) + length x < f')%nat ->
  match handle_all f c with
  | (ms, Some e, c1) => handle_all f' (grow x c) = (ms, Some e, grow x c1)
  | (ms, None, c1) => exists f1, (length (inb c1) + length x < f1)%nat /\ sane (inb c1 ++ x) /\
      handle_all f' (grow x c) = (let '(ms', e, c2) := handle_all f1 (grow x c1) in (ms ++ ms', e, c2))
  end.
Proof.
  induction f as [|f IH]; intros c S L f' L'; [lia|]. cbn [handle_all].
  pose proof (next_sane c (sane_pre _ _ S)) as O. destruct f' as [|f']; [lia|].
  inversion O as [E|e K E|hdr body rest F E' K E].
  - exists (Datatypes.S f'). csplit; [lia|exact S|]. destruct (handle_all (Datatypes.S f') (grow x c)) as [[ms e] c2]. reflexivity.
  - cbn [handle_all]. now rewrite K.
  - cbn [handle_all]. rewrite K, finish_grow. pose proof (@finish_ok c rest (decode_body body)) as NO. pose proof (@inb_finish c rest (decode_body body)) as IN.
    destruct (AdapterProofs.finish c rest (decode_body body)) as [[[m|]|e] c1]; cbn [fst snd] in *; [|congruence|reflexivity]. subst rest.
    assert (LN : (length (inb c1) + 4 <= length (inb c))%nat) by (rewrite (find_sub_sound _ _ _ _ F), !app_length; cbn [length crlf2]; lia).
    assert (SX : sane (inb c1 ++ x)).
    { eapply sane_rest; [exact S| |exact E']. rewrite (find_sub_mono _ x _ F). now rewrite app_assoc. }
    specialize (IH c1 SX ltac:(lia) f' ltac:(lia)). destruct (handle_all f c1) as [[ms [e|]] c2]; cbn [app].
    + now rewrite IH.
    + destruct IH as (f1 & L1 & S1 & ->). exists f1. csplit; auto. now destruct (handle_all f1 (grow x c2)) as [[? ?] ?].
Qed.

Lemma handle_quiet : forall f c ms c1, handle_all f c = (ms, None, c1) -> sane (inb c) -> next_message c1 = (Ok None, c1).
Proof.
  induction f as [|f IH]; intros c ms c1 H S; cbn [handle_all] in H; [discriminate|].
  pose proof (next_sane c S) as O. inversion O as [E|e K E|hdr body rest F E' K E]; rewrite <- E in H.
  - injection H as <- <-. now symmetry.
  - discriminate.
  - pose proof (@finish_ok c rest (decode_body body)) as NO. pose proof (@inb_finish c rest (decode_body body)) as IN.
    destruct (AdapterProofs.finish c rest (decode_body body)) as [[[m|]|e] c2]; cbn [fst snd] in *; [|congruence|discriminate].
    destruct (handle_all f c2) as [[ms' e] c3] eqn:R. injection H as <- -> <-. eapply IH; eauto. rewrite IN. eapply sane_rest; eauto.
Qed.
Lemma quiet_handle f c : next_message c = (Ok None, c) -> handle_all (S f) c = ([], None, c).
Proof. intros H. cbn. now rewrite H. Qed.
Lemma loop_all : forall chunks c, sane (inb c ++ concat chunks) -> next_message c = (Ok None, c) ->
  forall f, (length (inb c) + length (concat chunks) < f)%nat ->
  exists c3, read_loop false c chunks = (fst (handle_all f (grow (concat chunks) c)), c3) /\
    (snd (fst (handle_all f (grow (concat chunks) c))) = None -> c3 = snd (handle_all f (grow (concat chunks) c))).
Proof.
  induction chunks as [|d r IH]; intros c S Q f L; cbn [read_loop concat log_chunk].
  - rewrite grow_nil. destruct f as [|f]; [lia|]. rewrite quiet_handle by exact Q. eauto.
  - change (receive_data c d) with (grow d c). cbn [concat] in S, L. rewrite app_assoc in S. rewrite app_length in L.
    pose proof (@handle_grow (concat r) (Datatypes.S (length (inb (grow d c)))) (grow d c) S ltac:(lia) f ltac:(cbn [grow inb]; rewrite app_length; lia)) as H.
    rewrite grow_grow in H. pose proof (@handle_quiet (Datatypes.S (length (inb (grow d c)))) (grow d c)) as HQ.
    destruct (handle_all (Datatypes.S (length (inb (grow d c)))) (grow d c)) as [[ms [e|]] c1].
    + rewrite H. cbn. exists c1. split; [reflexivity|discriminate].
    + destruct H as (f1 & L1 & S1 & ->). specialize (HQ _ _ eq_refl (sane_pre _ _ S)). destruct (IH c1 S1 HQ f1 L1) as (c3 & E & W). rewrite E.
      destruct (handle_all f1 (grow (concat r) c1)) as [[ms' e'] c2]. cbn [fst snd] in *. exists c3. split; [reflexivity|auto].
Qed.

(** C63, for every stream, well formed or not: however the bytes of a stream are cut into chunks, the adapter
    handles the same messages and stops with the same exception or not at all. *)
Theorem C63_any_stream_partial stream a b c : inb c = [] -> no_negative stream -> concat a = stream -> concat b = stream ->
  fst (read_loop false c a) = fst (read_loop false c b) /\
  (snd (fst (read_loop false c a)) = None -> read_loop false c a = read_loop false c b).
Proof.
  intros I S0 A B. apply no_negative_sane in S0 as S. assert (Q : next_message c = (Ok None, c)) by (unfold next_message; rewrite I; reflexivity).
  assert (SA : sane (inb c ++ concat a)) by (rewrite I, A; exact S). assert (SB : sane (inb c ++ concat b)) by (rewrite I, B; exact S).
  destruct (@loop_all a c SA Q (Datatypes.S (length stream))) as (ca & Ea & Wa); [rewrite I, A; cbn; lia|].
  destruct (@loop_all b c SB Q (Datatypes.S (length stream))) as (cb & Eb & Wb); [rewrite I, B; cbn; lia|].
  rewrite Ea, Eb, A, B in *. cbn [fst snd]. split; [reflexivity|]. intros N. rewrite (Wa N), (Wb N). reflexivity.
Qed.
Print Assumptions C63_any_stream_partial.

Lemma find_announced hdr n rest : announces hdr n -> find_sub crlf2 (hdr ++ crlf2 ++ rest) = Some (hdr, rest).
Proof. intros (F & _). apply find_first_iff in F. rewrite app_assoc. exact (find_sub_mono _ rest _ F). Qed.
Lemma carry_sane k frs ms tail : carry k frs ms -> find_sub crlf2 tail = None -> sane (concat (map wire_of frs) ++ tail).
Proof.
  intros C T. induction C as [k|k [h b] frs m ms (A & D & G) C IH]; cbn [map concat].
  - now apply sane_open.
  - unfold wire_of at 1. cbn [fst snd] in *. rewrite <- !app_assoc. eapply sane_frame; [exact (@find_announced h (length b) _ A)|apply content_length_spec; exact (proj2 A)|exact IH].
Qed.
Lemma carry_handle k frs ms tail : carry k frs ms -> find_sub crlf2 tail = None -> forall c f, seq_in c = k -> inb c = concat (map wire_of frs) ++ tail -> (length (inb c) < f)%nat ->
  handle_all f c = (ms, None, mkConn (out c) tail (k + Z.of_nat (length ms)) (seq_out c)).
Proof.
  intros C T. induction C as [k|k [h b] frs m ms (A & D & G) C IH]; cbn [map concat app]; intros c f SQ I L; destruct f as [|f]; try lia.
  - cbn [handle_all]. unfold next_message. rewrite I, T. destruct c; cbn in *; subst. now rewrite Z.add_0_r.
  - unfold wire_of at 1 in I. cbn [fst snd] in *. rewrite <- !app_assoc in I. cbn [handle_all].
    erewrite next_complete; [|rewrite I; exact (@find_announced h (length b) _ A)|apply content_length_spec; exact (proj2 A)|reflexivity|reflexivity].
    rewrite D. cbn [AdapterProofs.finish]. rewrite G. cbn [seq_eqb]. rewrite SQ, Z.eqb_refl.
    erewrite IH; [|reflexivity|reflexivity|]. 
    + replace (k + 1 + Z.of_nat (length ms))%Z with (k + Z.of_nat (length (m :: ms)))%Z by (cbn [length]; lia). reflexivity.
    + cbn [inb]. rewrite I, !app_length in L. cbn [length crlf2] in L. rewrite !app_length. lia.
Qed.
(** C03 for every client: it may use any header lines and any JSON text (raw UTF-8, white
    space, order of members); the messages of complete frames are handled in order and an
    incomplete header is kept, for every way of cutting the stream. *)
Theorem C03_any_client c frs ms tail chunks : inb c = [] -> carry (seq_in c) frs ms -> ~ occurs [13; 10; 13; 10] tail ->
  concat chunks = concat (map wire_of frs) ++ tail ->
  read_loop false c chunks = (ms, None, mkConn (out c) tail (seq_in c + Z.of_nat (length ms)) (seq_out c)).
Proof.
  intros I C T0 E. apply occurs_none in T0 as T. assert (Q : next_message c = (Ok None, c)) by (unfold next_message; rewrite I; reflexivity).
  destruct (@loop_all chunks c) with (f := Datatypes.S (length (concat chunks))) as (c3 & L & W).
  - rewrite I, E. cbn [app]. eapply carry_sane; eauto.
  - exact Q.
  - rewrite I. cbn. lia.
  - rewrite L. rewrite (@carry_handle _ _ _ _ C T (grow (concat chunks) c) _) in W |- *.
    + cbn [fst snd] in *. rewrite (W eq_refl). reflexivity.
    + reflexivity.
    + unfold grow. cbn [inb]. rewrite I. exact E.
    + unfold grow. cbn [inb]. rewrite I. cbn. lia.
    + reflexivity.
    + unfold grow. cbn [inb]. rewrite I. exact E.
    + unfold grow. cbn [inb]. rewrite I. cbn. lia.
Qed.
Print Assumptions C03_any_client.

(* ------------------------------------------------------------------ C62 *)
Definition decodes (data : bytes) : Prop := exists t, utf8_decode data = Ok t.
(** C62: with every chunk ending between two characters the level does not matter. *)
Theorem C62_level_partial chunks : forall c, Forall decodes chunks -> read_loop true c chunks = read_loop false c chunks.
Proof.
  induction chunks as [|d r IH]; intros c F; [reflexivity|]. inversion F as [|? ? (t & D) F']; subst. cbn [read_loop log_chunk]. rewrite D.
  destruct (handle_all _ _) as [[ms [e|]] c2]; [reflexivity|]. now rewrite IH.
Qed.
(** In particular for pure ASCII, however it is cut. *)
Theorem C62_ascii_partial chunks c : Forall (fun b => b < 128) (concat chunks) -> read_loop true c chunks = read_loop false c chunks.
Proof.
  intros F. apply C62_level_partial. induction chunks as [|d r IH]; constructor; cbn [concat] in F; apply Forall_app in F as (A & B); [|auto].
  exists d. now apply utf8_decode_ascii.
Qed.
(** What debug logging does otherwise: the first chunk that is not text by itself ends the
    adapter before its messages are handled. *)
Theorem C62_first_bad_chunk pre bad post c ms c1 : Forall decodes pre -> ~ decodes bad -> read_loop false c pre = (ms, None, c1) ->
  exists e, read_loop true c (pre ++ bad :: post) = (ms, Some e, c1).
Proof.
  intros F B. assert (exists e, utf8_decode bad = Err e) as (e & D).
  { destruct (utf8_decode bad) as [t|e] eqn:D; [exfalso; apply B; now exists t|eauto]. }
  intros H. exists e. revert c ms H. induction F as [|d r (t & T) F IH]; intros c ms H.
  - cbn in H. injection H as <- <-. cbn [app read_loop log_chunk]. now rewrite D.
  - cbn [app read_loop log_chunk] in *. rewrite T. destruct (handle_all _ _) as [[ms1 [e1|]] c2]; [discriminate|].
    destruct (read_loop false c2 r) as [[ms2 e2] c3] eqn:R. injection H as <- -> <-. now rewrite (IH _ _ R).
Qed.
(** Sending: nothing is left in the buffer and the level does not matter. *)
Lemma take_all o i a b : data_to_send (mkConn o i a b) (-1) = (o, mkConn [] i a b).
Proof.
  unfold data_to_send. cbn [out inb seq_in seq_out]. rewrite Z.eqb_refl, Z.min_id. unfold slice_to, slice_from, slice_idx.
  replace (Z.to_nat _) with (length o); [now rewrite firstn_all, skipn_all|]. destruct (Z.ltb_spec (Z.of_nat (length o)) 0); lia.
Qed.
Theorem C62_output c m : out c = [] -> (forall j, enc (set_seq m (seq_out c)) = Ok j -> cpj j) ->
  send_out true c m = send_out false c m /\ out (snd (send_out true c m)) = [].
Proof.
  intros O W. unfold send_out, queue_msg. destruct (frame_of (set_seq m (seq_out c))) as [fr|e] eqn:F; [|split; [reflexivity|exact O]].
  cbn [out inb seq_in seq_out]. rewrite O. cbn [app]. rewrite take_all. cbn [log_chunk].
  assert (D : utf8_decode fr = Ok fr).
  { destruct (enc (set_seq m (seq_out c))) as [j|e] eqn:E; [|unfold frame_of in F; rewrite E in F; discriminate].
    rewrite (frame_of_ok _ _ E (W _ eq_refl)) in F. injection F as <-. apply utf8_decode_ascii. unfold frame_bytes. apply Forall_app. split; [apply plain_lt, header_plain|].
    apply Forall_app. split; [repeat constructor|apply plain_lt, dumps_plain, W; reflexivity]. }
  rewrite D. split; reflexivity.
Qed.
(** C62 is false: a request with a character outside ASCII is handled at every other level
    but ends the adapter at level debug if the 4096th byte falls into the character. *)
Definition long_body : bytes := s "{""seq"": 1, ""type"": ""request"", ""command"": ""evaluate"", ""arguments"": {""expression"": """ ++ repeat 120 3989 ++ [195; 169] ++ s """}}".
Definition long_frame : bytes * bytes := (s "Content-Length: " ++ Digits.digits (N.of_nat (length long_body)), long_body).
Theorem C62_refuted : exists chunks m, concat chunks = wire_of long_frame /\ map (@length N) chunks = [4096; 4]%nat /\
  fst (read_loop false new_conn chunks) = ([m], None) /\ fst (read_loop true new_conn chunks) = ([], Some ValueError) /\
  fst (read_loop true new_conn [wire_of long_frame]) = ([m], None).
Proof.
  exists [firstn 4096 (wire_of long_frame); skipn 4096 (wire_of long_frame)].
  destruct (decode_body long_body) as [m|] eqn:D; [|vm_compute in D; discriminate]. exists m.
  assert (K : carry 1 [long_frame] [m]).
  { constructor; [|constructor]. unfold carries, announces. csplit; [apply find_first_iff; vm_compute; reflexivity|apply content_length_spec; vm_compute; reflexivity|exact D|]. vm_compute in D. injection D as <-. vm_compute. reflexivity. }
  assert (R : forall chunks, concat chunks = wire_of long_frame -> fst (read_loop false new_conn chunks) = ([m], None)).
  { intros chunks E. rewrite (@C03_any_client new_conn [long_frame] [m] [] chunks); [reflexivity|reflexivity|exact K|apply occurs_none; reflexivity|]. rewrite E. cbn [map concat]. now rewrite !app_nil_r. }
  csplit.
  - cbn [concat]. rewrite app_nil_r. apply firstn_skipn.
  - vm_compute. reflexivity.
  - apply R. cbn [concat]. rewrite app_nil_r. apply firstn_skipn.
  - vm_compute. reflexivity.
  - rewrite C62_level_partial; [apply R; cbn [concat]; apply app_nil_r|]. repeat constructor. unfold decodes. destruct (utf8_decode (wire_of long_frame)) as [t|] eqn:U; [eauto|vm_compute in U; discriminate].
Qed.
(** A client's frame: header lines in another order, raw UTF-8 in the body; then the
    beginning of the next header. *)
Example C03_client_case : exists m, carry 1 [(s "Content-Type: x" ++ [13; 10] ++ s "Content-Length: 73", s "{""type"": ""request"", ""command"": ""threads"",  ""x"": """ ++ [195; 169] ++ s """,""seq"": 1, ""y"": null}")] [m] /\
  ~ occurs [13; 10; 13; 10] (s "Content-Length: 4" ++ [13; 10; 13]).
Proof.
  destruct (decode_body (s "{""type"": ""request"", ""command"": ""threads"",  ""x"": """ ++ [195; 169] ++ s """,""seq"": 1, ""y"": null}")) as [m|] eqn:D; [|vm_compute in D; discriminate].
  exists m. split; [|apply occurs_none; vm_compute; reflexivity]. constructor; [|constructor]. unfold carries, announces. csplit; [apply find_first_iff; vm_compute; reflexivity|apply content_length_spec; vm_compute; reflexivity|exact D|]. vm_compute in D. injection D as <-. vm_compute. reflexivity.
Qed.
(** A stream that is cut within a character and a stream with a malformed header. *)
Example no_negative_case : no_negative (firstn 4096 (wire_of long_frame)) /\ no_negative (s "Hello" ++ [13; 10; 13; 10] ++ s "x").
Proof.
  split; [eapply nn_short; [apply find_first_iff; vm_compute; reflexivity|apply content_length_spec; vm_compute; reflexivity|vm_compute; reflexivity]|].
  eapply nn_bad; [apply find_first_iff; vm_compute; reflexivity|]. intros z D. apply content_length_spec in D. vm_compute in D. discriminate.
Qed.
(** C63 is false: after a header with a negative length the bytes counted from the end of
    what has arrived so far are the body. *)
Definition odd_stream : bytes := s "Content-Length: -30" ++ crlf2 ++ s "{""seq"": 1, ""type"": ""request"", ""command"": ""threads""}" ++ s "       ".
Theorem C63_negative_length_refuted : exists a b m, concat a = odd_stream /\ concat b = odd_stream /\
  fst (read_loop false new_conn a) = ([m], None) /\ fst (read_loop false new_conn b) = ([], Some ValueError).
Proof.
  exists [odd_stream], [firstn 30 odd_stream; skipn 30 odd_stream].
  destruct (read_loop false new_conn [odd_stream]) as [[ms e] c] eqn:R. pose proof R as R'. vm_compute in R. injection R as <- <- _.
  eexists. csplit; [apply app_nil_r|cbn [concat]; rewrite app_nil_r; apply firstn_skipn|reflexivity|vm_compute; reflexivity].
Qed.
Print Assumptions C63_negative_length_refuted.
Print Assumptions C62_level_partial.
Print Assumptions C62_ascii_partial.
Print Assumptions C62_first_bad_chunk.
Print Assumptions C62_output.
Print Assumptions C62_refuted.
