(** The decoder accepts exactly the JSON texts of JsonSpec and yields the value they denote. *)
From Verif Require Import PyBase PyDict Digits JsonModel JsonSpec JsonProofs.
From Coq Require Import ZifyBool ZifyNat ZifyN.
Ltac Zify.zify_post_hook ::= idtac.
Set Implicit Arguments.
Local Open Scope N_scope.
#[local] Arguments N.add : simpl never.
#[local] Arguments N.sub : simpl never.
#[local] Arguments N.mul : simpl never.

(** * strings *)
Lemma unhex_iff c n : unhexdig c = Some n <-> hexdigit c n.
Proof.
  unfold unhexdig, is_digit. split.
  - destruct ((48 <=? c) && (c <=? 57)) eqn:A; [intros [= <-]; constructor; lia|].
    destruct ((97 <=? c) && (c <=? 102)) eqn:B; [intros [= <-]; replace (c - 87) with (10 + (c - 97)) by lia; constructor; lia|].
    destruct ((65 <=? c) && (c <=? 70)) eqn:D; [intros [= <-]; replace (c - 55) with (10 + (c - 65)) by lia; constructor; lia|discriminate].
  - intros H. inversion H; subst.
    + replace ((48 <=? c) && (c <=? 57)) with true by lia. reflexivity.
    + replace ((48 <=? c) && (c <=? 57)) with false by lia. replace ((97 <=? c) && (c <=? 102)) with true by lia. f_equal; lia.
    + replace ((48 <=? c) && (c <=? 57)) with false by lia. replace ((97 <=? c) && (c <=? 102)) with false by lia.
      replace ((65 <=? c) && (c <=? 70)) with true by lia. f_equal; lia.
Qed.
Lemma hex4_iff a b c d u : hex4v a b c d = Some u <-> uescape [92; 117; a; b; c; d] u.
Proof.
  unfold hex4v. split.
  - destruct (unhexdig a) as [na|] eqn:A; [|discriminate]. destruct (unhexdig b) as [nb|] eqn:B; [|discriminate].
    destruct (unhexdig c) as [nc|] eqn:C; [|discriminate]. destruct (unhexdig d) as [nd|] eqn:D; [|discriminate]. intros [= <-].
    replace (((na * 16 + nb) * 16 + nc) * 16 + nd) with (na * 4096 + nb * 256 + nc * 16 + nd) by lia.
    constructor; now apply unhex_iff.
  - intros H. inversion H as [? ? ? ? na nb nc nd A B C D E1 E2]; subst.
    apply unhex_iff in A, B, C, D. rewrite A, B, C, D. f_equal. lia.
Qed.
Lemma uesc_shape raw u : uescape raw u -> exists a b c d, raw = [92; 117; a; b; c; d] /\ hex4v a b c d = Some u.
Proof. intros H. pose proof H as H0. inversion H; subst. exists a, b, c, d. split; auto. now apply hex4_iff. Qed.
Lemma hex4_not34 a b c d u : hex4v a b c d = Some u -> a <> 34 /\ b <> 34 /\ c <> 34 /\ d <> 34.
Proof.
  unfold hex4v. intros H.
  destruct (unhexdig a) as [na|] eqn:A; [|discriminate]. destruct (unhexdig b) as [nb|] eqn:B; [|discriminate].
  destruct (unhexdig c) as [nc|] eqn:C; [|discriminate]. destruct (unhexdig d) as [nd|] eqn:D; [|discriminate].
  repeat split; intros ->; vm_compute in A, B, C, D; discriminate.
Qed.
Lemma high_iff u : is_high u = true <-> high u.
Proof. unfold is_high, high. lia. Qed.
Lemma low_iff u : is_low u = true <-> low u.
Proof. unfold is_low, low. lia. Qed.
Lemma unesc_iff e c : unesc e = Some c <-> In (e, c) escapes.
Proof.
  unfold unesc, escapes. split.
  - repeat match goal with |- context [?x =? ?k] => destruct (N.eqb_spec x k); [subst; intros [= <-]; cbn; tauto|] end. discriminate.
  - cbn. intros H. repeat (destruct H as [H|H]; [injection H as <- <-; reflexivity|]). destruct H.
Qed.

Lemma consR_inv c r t x : consR c r = Ok (t, x) -> exists t', r = Ok (t', x) /\ t = c :: t'.
Proof. destruct r as [(a, b)|]; cbn; [|discriminate]. intros [= <- <-]. eauto. Qed.

Lemma scan_str_sound l t r : scan_str l = Ok (t, r) -> exists raw, l = raw ++ 34 :: r /\ chars raw t.
Proof.
  revert t r. induction l as [l IH] using (well_founded_induction (Wf_nat.well_founded_ltof _ (@length N))).
  intros t r. unfold Wf_nat.ltof in IH. destruct l as [|c q]; cbn [scan_str]; [discriminate|].
  destruct (N.eqb_spec c 34) as [->|N34]; [intros [= <- <-]; exists []; split; [reflexivity|constructor]|].
  destruct (N.eqb_spec c 92) as [->|N92].
  2:{ destruct (c <? 32) eqn:L; [discriminate|]. intros H. apply consR_inv in H as (t' & H & ->).
      apply IH in H as (raw & -> & C); [|cbn; lia]. exists (c :: raw). split; [reflexivity|]. constructor; auto. lia. }
  destruct q as [|e r1]; [discriminate|]. destruct (N.eqb_spec e 117) as [->|N117].
  2:{ destruct (unesc e) as [x|] eqn:U; [|discriminate]. intros H. apply consR_inv in H as (t' & H & ->).
      apply IH in H as (raw & -> & C); [|cbn; lia]. exists (92 :: e :: raw). split; [reflexivity|]. constructor; auto. now apply unesc_iff. }
  destruct r1 as [|h1 [|h2 [|h3 [|h4 r2]]]]; try discriminate.
  destruct (hex4v h1 h2 h3 h4) as [u|] eqn:HU; [|discriminate]. pose proof HU as HU'. apply hex4_iff in HU'.
  assert (Single : (is_high u = true -> forall g1 g2 g3 g4 r3 lo, r2 = 92 :: 117 :: g1 :: g2 :: g3 :: g4 :: r3 -> hex4v g1 g2 g3 g4 = Some lo -> is_low lo = false) ->
    consR u (scan_str r2) = Ok (t, r) -> exists raw, 92 :: 117 :: h1 :: h2 :: h3 :: h4 :: r2 = raw ++ 34 :: r /\ chars raw t).
  { intros NP H. apply consR_inv in H as (t' & H & ->). apply IH in H as (raw & -> & C); [|cbn; lia].
    exists ([92; 117; h1; h2; h3; h4] ++ raw). split; [reflexivity|]. apply S_unit; auto.
    intros HI raw2 lo q2 -> E2 LO. apply uesc_shape in E2 as (a & b & c & d & -> & E2).
    apply high_iff in HI. specialize (NP HI a b c d (q2 ++ 34 :: r) lo eq_refl E2). apply low_iff in LO. congruence. }
  destruct (is_high u) eqn:HI; [|apply Single; discriminate].
  destruct r2 as [|b1 [|u1 [|g1 [|g2 [|g3 [|g4 r3]]]]]]; try (apply Single; intros; discriminate).
  destruct ((b1 =? 92) && (u1 =? 117)) eqn:BU.
  2:{ apply Single. intros _ ? ? ? ? ? ? [= -> -> -> -> -> -> ->]. cbn in BU. discriminate. }
  assert (b1 = 92 /\ u1 = 117) as (-> & ->) by lia.
  destruct (hex4v g1 g2 g3 g4) as [lo|] eqn:HL; [|discriminate].
  destruct (is_low lo) eqn:LO.
  2:{ apply Single. intros _ ? ? ? ? ? ? [= -> -> -> -> ->] E. congruence. }
  intros H. apply consR_inv in H as (t' & H & ->). apply IH in H as (raw & -> & C); [|cbn; lia].
  exists ([92; 117; h1; h2; h3; h4] ++ [92; 117; g1; g2; g3; g4] ++ raw). split; [reflexivity|].
  apply (S_pair HU'); auto; [now apply high_iff|now apply hex4_iff|now apply low_iff].
Qed.

(** what a text that starts with backslash u must look like *)
Lemma chars_u raw t r g1 g2 g3 g4 q : chars raw t -> raw ++ 34 :: r = 92 :: 117 :: g1 :: g2 :: g3 :: g4 :: q ->
  exists lo r2, hex4v g1 g2 g3 g4 = Some lo /\ raw = [92; 117; g1; g2; g3; g4] ++ r2.
Proof.
  intros C E. destruct C as [|c r0 t G A B C|e c r0 t I C|raw u r0 t U C N|raw1 hi raw2 lo r0 t U1 H U2 L C].
  - discriminate.
  - cbn in E. injection E as -> E. congruence.
  - cbn in E. injection E as -> E. apply unesc_iff in I. discriminate.
  - apply uesc_shape in U as (a & b & c & d & -> & U). cbn in E. injection E as -> -> -> -> E. eauto.
  - apply uesc_shape in U1 as (a & b & c & d & -> & U1). cbn in E. injection E as -> -> -> -> E. eauto.
Qed.

Lemma scan_str_complete raw t r : chars raw t -> scan_str (raw ++ 34 :: r) = Ok (t, r).
Proof.
  intros C. induction C as [|c r0 t G A B C IH|e c r0 t I C IH|raw u r0 t U C IH N|raw1 hi raw2 lo r0 t U1 H U2 L C IH].
  - reflexivity.
  - cbn [app scan_str]. apply N.eqb_neq in A, B. rewrite A, B. replace (c <? 32) with false by lia. now apply consR_Ok.
  - apply unesc_iff in I. cbn [app scan_str]. change (92 =? 34) with false. change (92 =? 92) with true. cbn [andb].
    destruct (N.eqb_spec e 117) as [->|_]; [discriminate|]. rewrite I. now apply consR_Ok.
  - apply uesc_shape in U as (a & b & c & d & -> & U). cbn [app]. cbn [scan_str]. change (92 =? 34) with false. change (92 =? 92) with true. change (117 =? 117) with true.
    cbn iota. rewrite U.
    destruct (is_high u) eqn:HI; [|now apply consR_Ok]. apply high_iff in HI. specialize (N HI).
    destruct (r0 ++ 34 :: r) as [|b1 [|u1 [|g1 [|g2 [|g3 [|g4 r3]]]]]] eqn:E; try (rewrite <- E; apply consR_Ok; rewrite E; exact IH).
    destruct ((b1 =? 92) && (u1 =? 117)) eqn:BU; [|now apply consR_Ok].
    assert (b1 = 92 /\ u1 = 117) as (-> & ->) by lia.
    destruct (chars_u _ C E) as (lo & q & HL & ->). rewrite HL. destruct (is_low lo) eqn:LO; [|now apply consR_Ok].
    exfalso. apply (N _ _ _ eq_refl (proj1 (hex4_iff _ _ _ _ _) HL)). now apply low_iff.
  - apply uesc_shape in U1 as (a & b & c & d & -> & U1). apply uesc_shape in U2 as (a' & b' & c' & d' & -> & U2).
    cbn [app]. cbn [scan_str]. change (92 =? 34) with false. change (92 =? 92) with true. change (117 =? 117) with true. cbn iota.
    rewrite U1. apply high_iff in H. rewrite H. cbn [andb]. rewrite U2. apply low_iff in L. rewrite L. now apply consR_Ok.
Qed.

(** * numbers *)
Lemma decimal_val ds n : decimal ds n -> ds <> [] /\ Forall (fun c => is_digit c = true) ds /\ val_digits ds = n.
Proof.
  induction 1 as [d D|ds n d H (NE & F & V) D].
  - split; [discriminate|]. split; [repeat constructor; unfold is_digit; lia|]. unfold val_digits. cbn. lia.
  - split; [destruct ds; discriminate|]. split; [apply Forall_app; split; auto; repeat constructor; unfold is_digit; lia|].
    rewrite val_digits_app, V. lia.
Qed.
Lemma val_decimal ds : ds <> [] -> Forall (fun c => is_digit c = true) ds -> decimal ds (val_digits ds).
Proof.
  induction ds as [|d ds IH] using rev_ind; [congruence|]. intros _ F. apply Forall_app in F as (F & D). inversion D as [|? ? D' _]; subst.
  destruct ds as [|x ds].
  - cbn [app]. unfold val_digits. cbn. replace (0 * 10 + (d - 48)) with (d - 48) by lia. constructor. unfold is_digit in D'. lia.
  - rewrite val_digits_app. rewrite N.mul_comm. constructor; [apply IH; [discriminate|auto]|unfold is_digit in D'; lia].
Qed.
Lemma take_digits_spec l a b : take_digits l = (a, b) -> l = a ++ b /\ Forall (fun c => is_digit c = true) a.
Proof.
  revert a b. induction l as [|c l IH]; intros a b; cbn [take_digits]; [intros [= <- <-]; split; auto|].
  destruct (is_digit c) eqn:D; [|intros [= <- <-]; split; auto].
  destruct (take_digits l) as (x, y). intros [= <- <-]. destruct (IH _ _ eq_refl) as (-> & F). split; auto.
Qed.
Lemma scan_num_sound neg l v r : scan_num neg l = Ok (v, r) ->
  exists raw n, l = raw ++ r /\ natural raw n /\ v = JInt (if neg then - Z.of_N n else Z.of_N n).
Proof.
  unfold scan_num. destruct l as [|c q]; [discriminate|]. destruct (N.eqb_spec c 48) as [->|N48].
  - destruct (float_tail q); [discriminate|]. intros [= <- <-]. exists [48], 0. split; auto. split; [split; auto|destruct neg; reflexivity].
    change 0 with (48 - 48). constructor. lia.
  - destruct (is_digit c) eqn:D; [|discriminate]. destruct (take_digits (c :: q)) as (ds, r') eqn:T. destruct (float_tail r'); [discriminate|].
    intros [= <- <-]. pose proof (take_digits_spec _ T) as (E & F). exists ds, (val_digits ds). split; auto. split; auto.
    cbn in T. rewrite D in T. destruct (take_digits q) as (x, y). injection T as <- <-. split; [apply val_decimal; [discriminate|auto]|].
    cbn. congruence.
Qed.
(** what may follow a value *)
Definition follow (r : list N) : Prop := match r with [] => True | c :: _ => In c [32; 9; 10; 13; 44; 93; 125] end.
Lemma scan_num_complete neg raw n r : natural raw n -> follow r ->
  scan_num neg (raw ++ r) = Ok (JInt (if neg then - Z.of_N n else Z.of_N n), r).
Proof.
  intros (D & Z0) F. apply decimal_val in D as (NE & FD & V).
  assert (Hft : float_tail r = false) by (destruct r as [|c r]; cbn in *; auto; repeat (destruct F as [<-|F]; [reflexivity|]); destruct F).
  assert (Hnd : match r with [] => True | c :: _ => is_digit c = false end) by (destruct r as [|c r]; cbn in *; auto; repeat (destruct F as [<-|F]; [reflexivity|]); destruct F).
  pose proof (take_digits_app _ _ FD Hnd) as T. destruct raw as [|d ds]; [congruence|]. cbn [app] in *.
  unfold scan_num. rewrite T. destruct (N.eqb_spec d 48) as [->|N48].
  - assert (E : 48 :: ds = [48]) by (apply Z0; reflexivity). injection E as ->. cbn [app]. rewrite Hft.
    unfold val_digits in V. cbn in V. subst n. destruct neg; reflexivity.
  - inversion FD as [|? ? H1 _]; subst. rewrite H1, Hft. reflexivity.
Qed.

(** * white space *)
Lemma ws_iff c : is_ws c = true <-> In c [32; 9; 10; 13].
Proof. unfold is_ws. cbn. lia. Qed.
Lemma skip_ws_spec l : exists w, white w /\ l = w ++ skip_ws l.
Proof.
  induction l as [|c l (w & W & E)]; [exists []; split; [constructor|reflexivity]|]. cbn [skip_ws]. destruct (is_ws c) eqn:S.
  - exists (c :: w). split; [constructor; auto; now apply ws_iff|]. cbn. now rewrite <- E.
  - exists []. split; [constructor|reflexivity].
Qed.
Lemma skip_ws_white w l : white w -> skip_ws (w ++ l) = skip_ws l.
Proof. induction 1 as [|c w H _ IH]; [reflexivity|]. cbn. apply ws_iff in H. now rewrite H. Qed.
Lemma skip_ws_not c l : ~ In c [32; 9; 10; 13] -> skip_ws (c :: l) = c :: l.
Proof. intros H. cbn [skip_ws]. destruct (is_ws c) eqn:S; auto. apply ws_iff in S. contradiction. Qed.
Lemma drop1_iff c l r : drop1 c l = Some r <-> l = c :: r.
Proof.
  destruct l as [|x l]; cbn; [split; discriminate|]. destruct (N.eqb_spec x c) as [->|NE].
  - split; [intros [= ->]|intros [= ->]]; reflexivity.
  - split; [discriminate|intros [= -> ->]; congruence].
Qed.

(** * values: soundness *)
Lemma startswith_app l p : startswith l p = true -> l = p ++ skipn (length p) l.
Proof. intros H. apply startswith_spec in H as (r & ->). now rewrite skipn_app, skipn_all, Nat.sub_diag. Qed.
Definition sound_at (f : nat) : Prop :=
  (forall l v r, scan_val f l = Ok (v, r) -> exists raw, l = raw ++ r /\ value raw v) /\
  (forall l vs r, scan_elems f l = Ok (vs, r) -> exists raw, l = raw ++ 93 :: r /\ elements raw vs) /\
  (forall acc l d r, scan_members f acc l = Ok (d, r) ->
     exists raw ms, l = raw ++ 125 :: r /\ members raw ms /\ d = fold_left (fun d kv => dset d (fst kv) (snd kv)) ms acc).
Lemma white_nil : white []. Proof. constructor. Qed.
Lemma elements_ws w raw l : white w -> elements raw l -> elements (w ++ raw) l.
Proof.
  intros W E. destruct E as [w1 raw v w2 W1 V W2|w1 raw v w2 rest l W1 V W2 R]; rewrite app_assoc; constructor; auto; apply Forall_app; auto.
Qed.
Lemma members_ws w raw l : white w -> members raw l -> members (w ++ raw) l.
Proof.
  intros W E. destruct E; rewrite app_assoc; constructor; auto; apply Forall_app; auto.
Qed.
Lemma sound f : sound_at f.
Proof.
  induction f as [|f (IV & IE & IM)]; (split; [|split]); try discriminate.
  - intros l v r. cbn [scan_val]. destruct l as [|c q]; [discriminate|].
    destruct (N.eqb_spec c 34) as [->|N34].
    { destruct (scan_str q) as [(t, x)|] eqn:S; [|discriminate]. cbn [bind]. intros [= <- <-]. apply scan_str_sound in S as (raw & -> & C).
      exists ([34] ++ raw ++ [34]). split; [now rewrite <- !app_assoc|]. now constructor. }
    destruct (N.eqb_spec c 123) as [->|N123].
    { destruct (skip_ws_spec q) as (w & W & E). destruct (drop1 125 (skip_ws q)) as [r'|] eqn:D.
      - apply drop1_iff in D. intros [= <- <-]. exists ([123] ++ w ++ [125]). rewrite D in E. split; [rewrite E; now rewrite <- !app_assoc|]. now constructor.
      - destruct (scan_members f [] (skip_ws q)) as [(d, x)|] eqn:S; [|discriminate]. cbn [bind]. intros [= <- <-].
        apply IM in S as (raw & ms & E2 & M & ->). exists ([123] ++ (w ++ raw) ++ [125]). rewrite E2 in E.
        split; [rewrite E; now rewrite <- !app_assoc|]. apply (V_obj (members_ws W M)). }
    destruct (N.eqb_spec c 91) as [->|N91].
    { destruct (skip_ws_spec q) as (w & W & E). destruct (drop1 93 (skip_ws q)) as [r'|] eqn:D.
      - apply drop1_iff in D. intros [= <- <-]. exists ([91] ++ w ++ [93]). rewrite D in E. split; [rewrite E; now rewrite <- !app_assoc|]. now constructor.
      - destruct (scan_elems f (skip_ws q)) as [(d, x)|] eqn:S; [|discriminate]. cbn [bind]. intros [= <- <-].
        apply IE in S as (raw & E2 & M). exists ([91] ++ (w ++ raw) ++ [93]). rewrite E2 in E.
        split; [rewrite E; now rewrite <- !app_assoc|]. constructor. now apply elements_ws. }
    destruct (startswith (c :: q) (s "null")) eqn:S1; [intros [= <- <-]; eexists; split; [apply (startswith_app _ _ S1)|constructor]|].
    destruct (startswith (c :: q) (s "true")) eqn:S2; [intros [= <- <-]; eexists; split; [apply (startswith_app _ _ S2)|constructor]|].
    destruct (startswith (c :: q) (s "false")) eqn:S3; [intros [= <- <-]; eexists; split; [apply (startswith_app _ _ S3)|constructor]|].
    destruct (startswith (c :: q) (s "NaN")); [discriminate|]. destruct (startswith (c :: q) (s "Infinity")); [discriminate|].
    destruct (startswith (c :: q) (s "-Infinity")); [discriminate|].
    destruct (N.eqb_spec c 45) as [->|N45]; intros H; apply scan_num_sound in H as (raw & n & E & NT & ->).
    + exists (45 :: raw). split; [now rewrite E|]. constructor. now constructor.
    + exists raw. split; [exact E|]. constructor. now constructor.
  - intros l vs r. cbn [scan_elems]. destruct (scan_val f l) as [(v, x)|] eqn:S; [|discriminate]. cbn [bind]. apply IV in S as (raw & -> & V).
    destruct (skip_ws_spec x) as (w & W & E). destruct (drop1 93 (skip_ws x)) as [r'|] eqn:D.
    + apply drop1_iff in D. intros [= <- <-]. exists ([] ++ raw ++ w). rewrite D in E. split; [rewrite E; cbn; now rewrite <- !app_assoc|]. constructor; auto using white_nil.
    + destruct (drop1 44 (skip_ws x)) as [r'|] eqn:D2; [|discriminate]. apply drop1_iff in D2. destruct (skip_ws_spec r') as (w' & W' & E').
      destruct (scan_elems f (skip_ws r')) as [(vs', y)|] eqn:S; [|discriminate]. cbn [bind]. intros [= <- <-]. apply IE in S as (raw' & E2 & EL).
      exists ([] ++ raw ++ w ++ [44] ++ w' ++ raw'). rewrite E2 in E'. rewrite D2, E' in E. split; [rewrite E; cbn; rewrite <- !app_assoc; cbn; now rewrite <- !app_assoc|].
      constructor; auto using white_nil. now apply elements_ws.
  - intros acc l d r. cbn [scan_members]. destruct (drop1 34 l) as [r0|] eqn:D; [|discriminate]. apply drop1_iff in D. subst l.
    destruct (scan_str r0) as [(k, x)|] eqn:S; [|discriminate]. cbn [bind]. apply scan_str_sound in S as (kr & -> & C).
    destruct (skip_ws_spec x) as (w & W & E). destruct (drop1 58 (skip_ws x)) as [r1|] eqn:D2; [|discriminate]. apply drop1_iff in D2. rewrite D2 in E. subst x.
    destruct (skip_ws_spec r1) as (w2 & W2 & E2). destruct (scan_val f (skip_ws r1)) as [(v, r2)|] eqn:S; [|discriminate]. cbn [bind]. apply IV in S as (vr & E3 & V). rewrite E3 in E2. subst r1. clear D2.
    destruct (skip_ws_spec r2) as (w3 & W3 & E4). destruct (drop1 125 (skip_ws r2)) as [r'|] eqn:D3.
    + apply drop1_iff in D3. intros [= <- <-]. rewrite D3 in E4. subst r2. exists ([] ++ [34] ++ kr ++ [34] ++ w ++ [58] ++ w2 ++ vr ++ w3), [(k, v)].
      split; [cbn; repeat (rewrite <- !app_assoc; cbn); reflexivity|]. split; [constructor; auto using white_nil|reflexivity].
    + destruct (drop1 44 (skip_ws r2)) as [r'|] eqn:D4; [|discriminate]. apply drop1_iff in D4. rewrite D4 in E4. subst r2.
      destruct (skip_ws_spec r') as (w4 & W4 & E5). intros S. apply IM in S as (raw' & ms & E6 & M & ->). rewrite E6 in E5. subst r'.
      exists ([] ++ [34] ++ kr ++ [34] ++ w ++ [58] ++ w2 ++ vr ++ w3 ++ [44] ++ (w4 ++ raw')), ((k, v) :: ms).
      split; [cbn; repeat (rewrite <- !app_assoc; cbn); reflexivity|]. split; [constructor; auto using white_nil; now apply members_ws|reflexivity].
Qed.

(** * values: completeness *)
Lemma natural_head raw n : natural raw n -> exists c r, raw = c :: r /\ is_digit c = true.
Proof. intros (D & _). apply decimal_val in D as (NE & F & _). destruct raw as [|c r]; [congruence|]. inversion F; subst. eauto. Qed.
Lemma value_head raw v : value raw v -> exists c r, raw = c :: r /\ jhead c.
Proof.
  unfold jhead. intros V. destruct V as [| | |raw z I| | | | |]; try (eexists; eexists; split; [reflexivity|]; vm_compute; tauto).
  destruct I as [l n H|l n H]; [|eexists; eexists; split; [reflexivity|]; tauto].
  apply natural_head in H as (c & r & -> & D). exists c, r. tauto.
Qed.
Lemma value_skip raw v r : value raw v -> skip_ws (raw ++ r) = raw ++ r.
Proof. intros V. apply value_head in V as (c & q & -> & H). cbn [app]. now apply jhead_skip. Qed.
Lemma value_drop x raw v r : x = 93 \/ x = 125 -> value raw v -> drop1 x (raw ++ r) = None.
Proof. intros X V. apply value_head in V as (c & q & -> & H). cbn. replace (c =? x) with false; auto. unfold jhead, is_digit in H. lia. Qed.
Lemma follow_ws w c r : white w -> In c [44; 93; 125] -> follow (w ++ c :: r).
Proof. intros W I. destruct W as [|x w X _]; cbn in *; [tauto|]. tauto. Qed.
Ltac nows := let H := fresh in intros H; vm_compute in H; repeat (destruct H as [H|H]; [discriminate H|]); destruct H.
Lemma complete :
  (forall raw v, value raw v -> forall f r, (2 * length raw <= f)%nat -> follow r -> scan_val f (raw ++ r) = Ok (v, r)) /\
  (forall raw l, elements raw l -> forall f r, (2 * length raw + 1 <= f)%nat ->
     drop1 93 (skip_ws (raw ++ 93 :: r)) = None /\ scan_elems f (skip_ws (raw ++ 93 :: r)) = Ok (l, r)) /\
  (forall raw l, members raw l -> forall f acc r, (2 * length raw + 1 <= f)%nat ->
     drop1 125 (skip_ws (raw ++ 125 :: r)) = None /\
     scan_members f acc (skip_ws (raw ++ 125 :: r)) = Ok (fold_left (fun d kv => dset d (fst kv) (snd kv)) l acc, r)).
Proof.
  apply json_mutind.
  - intros f r L F. destruct f as [|f]; [vm_compute in L; lia|]. reflexivity.
  - intros f r L F. destruct f as [|f]; [vm_compute in L; lia|]. reflexivity.
  - intros f r L F. destruct f as [|f]; [vm_compute in L; lia|]. reflexivity.
  - intros raw z I f r L F. destruct I as [l n H|l n H].
    + pose proof (@scan_num_complete false _ _ _ H F) as E. destruct (@natural_head _ _ H) as (c & q & -> & D). cbn [length] in L. destruct f as [|f]; [lia|].
      cbn [app scan_val]. cbn [app] in E. unfold is_digit in D.
      replace (c =? 34) with false by lia. replace (c =? 123) with false by lia. replace (c =? 91) with false by lia. replace (c =? 45) with false by lia.
      change (s "null") with [110;117;108;108]. change (s "true") with [116;114;117;101]. change (s "false") with [102;97;108;115;101].
      change (s "NaN") with [78;97;78]. change (s "Infinity") with (73 :: s "nfinity"). change (s "-Infinity") with (45 :: s "Infinity"). cbn [startswith].
      replace (110 =? c) with false by lia. replace (116 =? c) with false by lia. replace (102 =? c) with false by lia. replace (78 =? c) with false by lia.
      replace (73 =? c) with false by lia. replace (45 =? c) with false by lia. cbn [andb]. exact E.
    + pose proof (@scan_num_complete true _ _ _ H F) as E. destruct (@natural_head _ _ H) as (c & q & -> & D). cbn [length] in L. destruct f as [|f]; [lia|].
      cbn [app scan_val]. cbn [app] in E. unfold is_digit in D.
      change (s "null") with [110;117;108;108]. change (s "true") with [116;114;117;101]. change (s "false") with [102;97;108;115;101].
      change (s "NaN") with [78;97;78]. change (s "Infinity") with (73 :: s "nfinity"). change (s "-Infinity") with (45 :: 73 :: s "nfinity"). cbn [startswith].
      change (45 =? 34) with false. change (45 =? 123) with false. change (45 =? 91) with false. change (110 =? 45) with false. change (116 =? 45) with false. change (102 =? 45) with false. change (78 =? 45) with false. change (73 =? 45) with false. change (45 =? 45) with true.
      replace (73 =? c) with false by lia. cbn [andb]. exact E.
  - intros raw t C f r L F. destruct f as [|f]; [rewrite !app_length in L; cbn in L; lia|]. cbn [app scan_val]. change (34 =? 34) with true. cbn iota.
    rewrite <- app_assoc. cbn [app]. now rewrite (scan_str_complete r C).
  - intros w W f r L F. destruct f as [|f]; [rewrite !app_length in L; cbn in L; lia|]. cbn [app scan_val]. change (91 =? 34) with false. change (91 =? 123) with false. change (91 =? 91) with true. cbn iota.
    rewrite <- app_assoc, skip_ws_white by auto. cbn [app]. rewrite skip_ws_not by nows. reflexivity.
  - intros raw l E IH f r L F. rewrite !app_length in L. cbn in L. destruct f as [|f]; [lia|]. cbn [app scan_val]. change (91 =? 34) with false. change (91 =? 123) with false. change (91 =? 91) with true. cbn iota.
    rewrite <- app_assoc. cbn [app]. destruct (IH f r) as (A & B); [lia|]. now rewrite A, B.
  - intros w W f r L F. destruct f as [|f]; [rewrite !app_length in L; cbn in L; lia|]. cbn [app scan_val]. change (123 =? 34) with false. change (123 =? 123) with true. cbn iota.
    rewrite <- app_assoc, skip_ws_white by auto. cbn [app]. rewrite skip_ws_not by nows. reflexivity.
  - intros raw l E IH f r L F. rewrite !app_length in L. cbn in L. destruct f as [|f]; [lia|]. cbn [app scan_val]. change (123 =? 34) with false. change (123 =? 123) with true. cbn iota.
    rewrite <- app_assoc. cbn [app]. destruct (IH f [] r) as (A & B); [lia|]. now rewrite A, B.
  - intros w1 raw v w2 W1 V IH W2 f r L. rewrite !app_length in L. rewrite <- !app_assoc, skip_ws_white, (value_skip _ V) by auto. split; [now apply (value_drop _ (or_introl eq_refl) V)|].
    destruct f as [|f]; [lia|]. cbn [scan_elems]. rewrite IH; [|lia|apply follow_ws; cbn; tauto]. cbn [bind]. rewrite skip_ws_white, skip_ws_not by (auto; nows). reflexivity.
  - intros w1 raw v w2 rest l W1 V IH W2 E IE f r L. rewrite !app_length in L. cbn [length] in L. rewrite <- !app_assoc, skip_ws_white, (value_skip _ V) by auto. split; [now apply (value_drop _ (or_introl eq_refl) V)|].
    destruct f as [|f]; [lia|]. cbn [scan_elems app]. rewrite IH; [|lia|apply follow_ws; cbn; tauto]. cbn [bind]. rewrite skip_ws_white, skip_ws_not by (auto; nows).
    cbn [drop1]. change (44 =? 93) with false. change (44 =? 44) with true. cbn iota. destruct (IE f r) as (A & B); [lia|]. now rewrite B.
  - intros w1 k t w2 w3 raw v w4 W1 C W2 W3 V IH W4 f acc r L. rewrite !app_length in L. cbn [length] in L. rewrite <- !app_assoc, skip_ws_white by auto. cbn [app]. rewrite skip_ws_not by nows. split; [reflexivity|].
    destruct f as [|f]; [lia|]. cbn [scan_members drop1]. change (34 =? 34) with true. cbn iota. rewrite <- ?app_assoc. cbn [app]. rewrite (scan_str_complete _ C). cbn [bind].
    rewrite <- ?app_assoc, skip_ws_white by auto. cbn [app]. rewrite skip_ws_not by nows. cbn [drop1]. change (58 =? 58) with true. cbn iota.
    rewrite <- ?app_assoc, skip_ws_white, (value_skip _ V) by auto. rewrite IH; [|lia|apply follow_ws; cbn; tauto]. cbn [bind]. rewrite skip_ws_white, skip_ws_not by (auto; nows). reflexivity.
  - intros w1 k t w2 w3 raw v w4 rest l W1 C W2 W3 V IH W4 M IM f acc r L. rewrite !app_length in L. cbn [length] in L. rewrite <- !app_assoc, skip_ws_white by auto. cbn [app]. rewrite skip_ws_not by nows. split; [reflexivity|].
    destruct f as [|f]; [lia|]. cbn [scan_members drop1]. change (34 =? 34) with true. cbn iota. repeat (rewrite <- ?app_assoc; cbn [app]). rewrite (scan_str_complete _ C). cbn [bind].
    rewrite skip_ws_white by auto. rewrite skip_ws_not by nows. cbn [drop1]. change (58 =? 58) with true. cbn iota.
    rewrite skip_ws_white, (value_skip _ V) by auto. rewrite IH; [|lia|apply follow_ws; cbn; tauto]. cbn [bind]. rewrite skip_ws_white, skip_ws_not by (auto; nows).
    cbn [drop1]. change (44 =? 125) with false. change (44 =? 44) with true. cbn iota. destruct (IM f (dset acc t v) r) as (A & B); [lia|]. now rewrite B.
Qed.

(** * the whole text *)
Theorem C05_json_exact : forall l v, loads l = Ok v <-> json_text l v.
Proof.
  intros l v. unfold loads, json_text. split.
  - destruct (drop1 65279 l) eqn:B; [discriminate|]. destruct (scan_val (2 * length l + 2) (skip_ws l)) as [(v', r)|] eqn:S; [|discriminate]. cbn [bind].
    destruct (skip_ws r) as [|x y] eqn:R; [|discriminate]. intros [= ->]. destruct (skip_ws_spec l) as (w1 & W1 & E1). destruct (skip_ws_spec r) as (w2 & W2 & E2).
    apply (sound _) in S as (raw & E & V). exists w1, raw, w2. split; auto. split; auto. split; auto. rewrite R, app_nil_r in E2. congruence.
  - intros (w1 & raw & w2 & W1 & V & W2 & ->).
    assert (B : drop1 65279 (w1 ++ raw ++ w2) = None).
    { destruct (drop1 65279 (w1 ++ raw ++ w2)) eqn:D; auto. apply drop1_iff in D. exfalso. destruct W1 as [|x w X _]; cbn in D.
      - destruct (value_head V) as (c & q & -> & H). cbn in D. injection D as -> _. unfold jhead in H. vm_compute in H. repeat (destruct H as [H|H]; [discriminate H|]). discriminate H.
      - injection D as -> _. cbn in X. repeat (destruct X as [X|X]; [discriminate X|]). destruct X. }
    rewrite B, skip_ws_white, (value_skip _ V) by auto.
    assert (F : follow w2) by (destruct W2 as [|x w X _]; cbn in *; tauto).
    rewrite (proj1 complete _ _ V); [|rewrite !app_length; lia|exact F]. cbn [bind]. rewrite <- (app_nil_r w2), skip_ws_white by auto. reflexivity.
Qed.
(** so a text denotes at most one value *)
Corollary json_text_unique l v v' : json_text l v -> json_text l v' -> v = v'.
Proof. rewrite <- !C05_json_exact. congruence. Qed.
