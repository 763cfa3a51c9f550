From Verif Require Import PyBase PyDict Digits JsonModel JsonProofs MsgBase MsgTables MsgModel MsgSpec MsgProofs MsgProofs2 MsgProofs3 MsgProofs4 AdapterModel AdapterProofs AdapterSpec.
From Coq Require Import ZifyBool ZifyNat ZifyN Sorted.
Ltac Zify.zify_post_hook ::= Z.div_mod_to_equations.

(** * set_seq keeps a message well typed *)
Lemma dget_dset_attr attrs n f : dget (dset attrs (s "seq") (PInt n)) f = if eqb (s "seq") f then Some (PInt n) else dget attrs f.
Proof. apply (dget_dset attrs). Qed.
Lemma attr_set_seq_other c attrs n f : eqb (s "seq") (s f) = false -> attr (set_seq (PObj c attrs) n) f = attr (PObj c attrs) f.
Proof. intros H. cbn [set_seq attr]. rewrite dget_dset_attr, H. reflexivity. Qed.

Definition seq_field_ok (c : cid) : bool :=
  match find_field c (s "seq"), dget (dapmap c) (s "seq") with
  | Some fd, Some (MF f) => match funp fd with UId => eqb f (s "seq") | _ => false end
  | _, _ => false end.
Lemma reg_seq_ok kind t c : In (t, c) (reg_of kind) -> seq_field_ok c = true.
Proof.
  intros Hin. assert (H : forallb (fun tc => seq_field_ok (snd tc)) (reg_of kind) = true) by (destruct kind; vm_compute; reflexivity).
  rewrite forallb_forall in H. exact (H _ Hin).
Qed.
Lemma wt_set_seq c v n : seq_field_ok c = true -> wt (UObj c) v -> wt (UObj c) (set_seq v n).
Proof.
  intros Hs Hw. apply wt_obj in Hw. destruct Hw as (attrs & -> & Hc & Hk & Hw). unfold seq_field_ok in Hs.
  destruct (find_field c (s "seq")) as [fd0|] eqn:Ef; [|discriminate].
  destruct (dget (dapmap c) (s "seq")) as [[f|]|] eqn:Em; try discriminate.
  destruct (funp fd0) eqn:Eu; try discriminate. apply eqb_eq in Hs. subst f.
  assert (Hin : In (s "seq") (map fst attrs)).
  { rewrite Hk. apply find_field_In in Ef. destruct Ef as [Ef En]. rewrite <- En. now apply in_map. }
  apply wt_obj. exists (dset attrs (s "seq") (PInt n)). split; [reflexivity|]. split; [auto|]. split.
  - rewrite <- Hk. apply (dkeys_dset_in attrs); auto.
  - revert Hw. generalize (fun k x (P : In (k, x) attrs) => P). intros _ Hw.
    intros k x fd Hin2 Hfd Hfn.
    assert (Hd : dget (dset attrs (s "seq") (PInt n)) k = Some x).
    { apply In_dget; auto. apply NoDup_dset. unfold dkeys. rewrite Hk. apply NoDup_fields. }
    rewrite dget_dset_attr in Hd. destruct (eqb_spec (s "seq") k) as [<-|Hne].
    + injection Hd as <-. pose proof (find_field_In _ _ _ Ef) as [Hfd0 Hfn0].
      assert (fd = fd0).
      { pose proof (NoDup_fields c) as Hnd. clear -Hfd Hfd0 Hfn Hfn0 Hnd.
        rewrite <- Hfn0 in Hfn. clear Hfn0. revert Hfd Hfd0 Hnd. induction (fields c) as [|y l IH]; intros H1 H2 Hnd; [destruct H1|].
        inversion Hnd; subst. destruct H1 as [->|H1], H2 as [->|H2]; auto.
        - exfalso. apply H3. rewrite Hfn. now apply in_map.
        - exfalso. apply H3. rewrite <- Hfn. now apply in_map. }
      subst fd. split; [unfold wta; rewrite Eu; exact I|]. intros Hn. exfalso. apply Hn. unfold mapped.
      apply in_flat_map. exists (s "seq", MF (s "seq")). split; [now apply dget_In|left; auto].
    + eapply Hw; eauto. now apply dget_In.
Qed.

Lemma msg_set_seq c kind v n : msg_of c kind v -> msg_of c kind (set_seq v n).
Proof.
  intros [Hw Hk].
  assert (Hin : exists t, In (t, c) (reg_of kind)).
  { destruct kind; cbn [reg_of].
    - destruct Hk as (_ & t & _ & H); eauto.
    - destruct Hk as (_ & [(_ & t & _ & H)|(_ & ->)]); [eauto|]. exists (s "error"). vm_compute; tauto.
    - destruct Hk as (_ & t & _ & H); eauto. }
  destruct Hin as (t & Hin). pose proof (reg_seq_ok _ _ _ Hin) as Hs.
  split; [now apply wt_set_seq|].
  pose proof (proj1 (wt_obj c v) Hw) as (attrs & -> & _).
  destruct kind; rewrite ?attr_set_seq_other by reflexivity; exact Hk.
Qed.
Lemma launch_set_seq c v n : launch_of c v -> launch_of c (set_seq v n).
Proof.
  intros [(seq & args & restart & -> & H1 & H2 & H3 & H4 & ->)|(seq & args & nd & restart & -> & H1 & H2 & H3 & H4 & H5 & H6 & ->)].
  - left. exists (PInt n), args, restart. repeat split; auto; apply H2.
  - right. exists (PInt n), args, nd, restart. repeat split; auto; apply H2.
Qed.

Lemma sendable_good v n : sendable v ->
  exists j, enc (set_seq v n) = Ok j /\ wfj j /\ unpack_msg j = Ok (set_seq v n) /\ get_attr (set_seq v n) (s "seq") = Ok (PInt n).
Proof.
  intros (c & kind & H).
  assert (Hq : get_attr (set_seq v n) (s "seq") = Ok (PInt n)).
  { assert (Ho : exists c attrs, v = PObj c attrs).
    { destruct H as [[Hw _]|[(seq & args & restart & _ & _ & _ & _ & _ & ->)|(seq & args & nd & restart & _ & _ & _ & _ & _ & _ & _ & ->)]]; eauto.
      apply wt_obj in Hw. destruct Hw as (attrs & -> & _). eauto. }
    destruct Ho as (c0 & attrs & ->). cbn [set_seq get_attr]. rewrite dget_dset_attr, eqb_refl. reflexivity. }
  destruct H as [H|H].
  - destruct (msg_roundtrip _ _ _ (msg_set_seq _ _ _ n H)) as (j & H1 & H2 & H3). eauto 10.
  - destruct (launch_roundtrip _ _ (launch_set_seq _ _ n H)) as (j & H1 & H2 & H3). eauto 10.
Qed.

(** bodies of a list of messages on the wire, numbered from [k] *)
Inductive wire : Z -> list pval -> list (list N) -> Prop :=
| wire_nil k : wire k [] []
| wire_cons k v vs j bs : enc (set_seq v k) = Ok j -> wfj j -> unpack_msg j = Ok (set_seq v k) ->
    get_attr (set_seq v k) (s "seq") = Ok (PInt k) -> wire (k + 1) vs bs -> wire k (v :: vs) (dumps j :: bs).
Lemma wire_ex vs : Forall sendable vs -> forall k, exists bs, wire k vs bs.
Proof.
  induction 1 as [|v vs Hv Hvs IH]; intros k; [exists []; constructor|].
  destruct (sendable_good v k Hv) as (j & H1 & H2 & H3 & H4). destruct (IH (k + 1)%Z) as (bs & Hbs).
  exists (dumps j :: bs). econstructor; eauto.
Qed.
Lemma decode_dumps j v : wfj j -> unpack_msg j = Ok v -> decode_body (dumps j) = Ok v.
Proof.
  intros Hw Hu. unfold decode_body. rewrite utf8_decode_ascii by (apply plain_lt, dumps_plain, wfj_cpj, Hw).
  cbn [bind]. rewrite loads_dumps by auto. exact Hu.
Qed.

Definition frames (bs : list (list N)) : list N := flat_map frame_bytes bs.
Lemma app_split {A} (a f x y : list A) : a ++ f = x ++ y -> length x <= length a -> exists r, a = x ++ r /\ r ++ f = y.
Proof.
  revert a. induction x as [|b x IH]; intros a H L; [exists a; auto|].
  destruct a as [|a0 a]; cbn [length] in L; [lia|]. cbn [app] in H. injection H as -> H.
  destruct (IH a H ltac:(lia)) as (r & -> & E). exists r; auto.
Qed.
Lemma app_split_lt {A} (a f x y : list A) : a ++ f = x ++ y -> length a < length x -> exists r, r <> [] /\ a ++ r = x.
Proof.
  revert x. induction a as [|b a IH]; intros x H L; [exists x; split; auto; intros ->; cbn in L; lia|].
  destruct x as [|c x]; cbn [length] in L; [lia|]. cbn [app] in H. injection H as -> H.
  destruct (IH x H ltac:(lia)) as (r & Hr & E). exists r. split; auto. cbn. now rewrite E.
Qed.

(** what is left to come: either nothing, or the buffer is a strict prefix of the next frame *)
Definition waiting (b : list N) (bs : list (list N)) : Prop :=
  match bs with [] => b = [] | x :: _ => exists r, r <> [] /\ b ++ r = frame_bytes x end.

Lemma drain_ok vs : forall k bs c future f, wire k vs bs -> seq_in c = k -> inb c ++ future = frames bs -> length (inb c) < f ->
  exists vs1 vs2 bs2 c', vs = vs1 ++ vs2 /\ wire (k + Z.of_nat (length vs1)) vs2 bs2 /\ drain f c = (Ok (number k vs1), c') /\
    out c' = out c /\ seq_out c' = seq_out c /\ seq_in c' = (k + Z.of_nat (length vs1))%Z /\ inb c' ++ future = frames bs2 /\ waiting (inb c') bs2.
Proof.
  induction vs as [|v vs IH]; intros k bs c future f Hw Hk Hb Hf; inversion Hw as [|k0 v0 vs0 j bs0 He Hwf Hu Hq Hw2]; subst.
  - cbn [frames flat_map] in Hb. apply app_eq_nil in Hb. destruct Hb as [Hi ->].
    destruct f as [|f]; [lia|]. exists [], [], [], c. cbn [app length number drain].
    assert (Hn : next_message c = (Ok None, c)) by (unfold next_message; rewrite Hi; reflexivity).
    rewrite Hn. repeat split; auto; [rewrite Z.add_0_r; constructor|lia|rewrite Hi; reflexivity].
  - cbn [frames flat_map] in Hb. fold (frames bs0) in Hb.
    destruct (Nat.le_gt_cases (length (frame_bytes (dumps j))) (length (inb c))) as [Hle|Hgt].
    + destruct (app_split _ _ _ _ Hb Hle) as (rest & Hi & Hrest).
      pose proof (next_frame c (dumps j) rest Hi) as Hn. rewrite (decode_dumps j _ Hwf Hu) in Hn. cbn [finish] in Hn.
      rewrite Hq in Hn. cbn [seq_eqb] in Hn. rewrite Z.eqb_refl in Hn.
      destruct f as [|f]; [lia|]. cbn [drain]. rewrite Hn.
      set (c1 := mkConn (out c) rest (seq_in c + 1) (seq_out c)) in *.
      destruct (IH (seq_in c + 1)%Z bs0 c1 future f) as (vs1 & vs2 & bs2 & c' & E1 & E2 & E3 & E4 & E5 & E6 & E7 & E8); auto.
      { cbn [c1 inb]. apply (f_equal (@length N)) in Hi. rewrite app_length in Hi.
        pose proof (frame_nonempty (dumps j)). destruct (frame_bytes (dumps j)); [congruence|]. cbn [length] in Hi. lia. }
      exists (v :: vs1), vs2, bs2, c'. rewrite E3. cbn [app number length]. split; [now rewrite E1|].
      replace (seq_in c + Z.of_nat (S (length vs1)))%Z with (seq_in c + 1 + Z.of_nat (length vs1))%Z by lia.
      repeat split; auto.
    + destruct (app_split_lt _ _ _ _ Hb Hgt) as (r & Hr & Ei).
      pose proof (next_prefix c (dumps j) r Hr Ei) as Hn.
      destruct f as [|f]; [lia|]. exists [], (v :: vs), (dumps j :: bs0), c. cbn [drain app length number]. rewrite Hn.
      repeat split; auto; try (rewrite Z.add_0_r; auto). cbn [waiting]. eauto.
Qed.

Lemma number_app k a b : number k (a ++ b) = number k a ++ number (k + Z.of_nat (length a)) b.
Proof.
  revert k. induction a as [|v a IH]; intros k; cbn [app number length]; [now rewrite Z.add_0_r|].
  rewrite IH. do 2 f_equal. f_equal. lia.
Qed.

Lemma feed_ok chunks : forall vs k bs c, wire k vs bs -> seq_in c = k -> inb c ++ concat chunks = frames bs -> waiting (inb c) bs ->
  feed c chunks = (Ok (number k vs), mkConn (out c) [] (k + Z.of_nat (length vs)) (seq_out c)).
Proof.
  induction chunks as [|d chunks IH]; intros vs k bs c Hw Hk Hb Hwait.
  - cbn [concat] in Hb. rewrite app_nil_r in Hb.
    assert (vs = [] /\ inb c = []).
    { inversion Hw; subst; [split; auto|].
      cbn [waiting] in Hwait. destruct Hwait as (r & Hr & E). cbn [frames flat_map] in Hb. rewrite Hb in E.
      apply (f_equal (@length N)) in E. rewrite !app_length in E. destruct r; [congruence|]. cbn [length] in E. lia. }
    destruct H as [-> Hi]. cbn [feed number length]. rewrite Z.add_0_r, <- Hk, <- Hi. destruct c; reflexivity.
  - cbn [feed feed_chunk]. unfold feed_chunk. cbn [concat] in Hb. rewrite app_assoc in Hb.
    destruct (drain_ok vs k bs (receive_data c d) (concat chunks) (S (length (inb (receive_data c d)))) Hw Hk Hb ltac:(lia))
      as (vs1 & vs2 & bs2 & c' & E1 & E2 & E3 & E4 & E5 & E6 & E7 & E8).
    rewrite E3. rewrite (IH vs2 _ bs2 c' E2 E6 E7 E8). subst vs. rewrite number_app, app_length.
    f_equal. rewrite E4, E5. cbn [receive_data out seq_out]. f_equal. lia.
Qed.

(** * Sending side *)
Lemma queue_ok_frame c v j : enc (set_seq v (seq_out c)) = Ok j -> cpj j ->
  queue_msg c v = (Ok (seq_out c), mkConn (out c ++ frame_bytes (dumps j)) (inb c) (seq_in c) (seq_out c + 1)).
Proof. intros He Hc. unfold queue_msg. rewrite (frame_of_ok _ _ He Hc). reflexivity. Qed.

Definition queue_all (c : conn) (vs : list pval) : conn := fold_left (fun c v => snd (queue_msg c v)) vs c.
Lemma queue_all_wire vs : forall c bs, wire (seq_out c) vs bs ->
  queue_all c vs = mkConn (out c ++ frames bs) (inb c) (seq_in c) (seq_out c + Z.of_nat (length vs)).
Proof.
  induction vs as [|v vs IH]; intros c bs Hw; inversion Hw as [|k0 v0 vs0 j bs0 He Hwf Hu Hq Hw2]; subst.
  - cbn [queue_all fold_left frames flat_map length]. rewrite app_nil_r, Z.add_0_r. destruct c; reflexivity.
  - cbn [queue_all fold_left]. rewrite (queue_ok_frame c v j He (wfj_cpj _ Hwf)). cbn [snd].
    set (c1 := mkConn _ _ _ _). fold (queue_all c1 vs). rewrite (IH c1 bs0) by assumption.
    cbn [c1 out inb seq_in seq_out frames flat_map length]. fold (frames bs0). rewrite <- app_assoc. f_equal. lia.
Qed.

Lemma segmentation vs snd_c rcv chunks :
  Forall sendable vs -> seq_in rcv = seq_out snd_c -> inb rcv = [] ->
  out snd_c ++ concat chunks = out (queue_all snd_c vs) ->
  feed rcv chunks = (Ok (number (seq_out snd_c) vs), mkConn (out rcv) [] (seq_out snd_c + Z.of_nat (length vs)) (seq_out rcv)).
Proof.
  intros Hv Hs Hi Hc. destruct (wire_ex vs Hv (seq_out snd_c)) as (bs & Hw).
  rewrite (queue_all_wire vs snd_c bs Hw) in Hc. cbn [out] in Hc. apply app_inv_head in Hc.
  eapply feed_ok; eauto.
  - now rewrite Hi.
  - rewrite Hi. destruct bs as [|b bs]; cbn [waiting]; auto. exists (frame_bytes b). split; [apply frame_nonempty|reflexivity].
Qed.

(** * Conservation of the outgoing stream (C01) *)
Fixpoint frames_of (vs : list pval) : res (list N) :=
  match vs with [] => Ok [] | v :: r => do f <- frame_of v; do fs <- frames_of r; Ok (f ++ fs) end.
Lemma take_conserve c n : fst (data_to_send c n) ++ out (snd (data_to_send c n)) = out c.
Proof. unfold data_to_send. cbn [fst snd out]. apply slice_split. Qed.

Lemma conserve ops : forall c, exists fs,
  frames_of (queued (fst (run c ops))) = Ok fs /\ handed (fst (run c ops)) ++ out (snd (run c ops)) = out c ++ fs.
Proof.
  induction ops as [|o ops IH]; intros c; [exists []; split; auto; cbn; now rewrite app_nil_r|].
  cbn [run]. destruct (step c o) as [x c1] eqn:Es. destruct (run c1 ops) as [tr c2] eqn:Er.
  destruct (IH c1) as (fs & H1 & H2). rewrite Er in H1, H2. cbn [fst snd] in *.
  destruct o as [v|n|d|]; cbn [step] in Es.
  - unfold queue_msg in Es. destruct (frame_of (set_seq v (seq_out c))) as [fr|e] eqn:Ef.
    + injection Es as <- <-. exists (fr ++ fs). cbn [queued handed flat_map snd app]. fold (queued tr). fold (handed tr). cbn [frames_of].
      rewrite Ef. cbn [bind]. rewrite H1. cbn [bind]. split; auto. rewrite H2. cbn [out]. now rewrite app_assoc.
    + injection Es as <- <-. exists fs. cbn [queued handed flat_map snd app]. auto.
  - destruct (data_to_send c n) as [b c1'] eqn:Ed. injection Es as <- <-.
    exists fs. cbn [queued handed flat_map snd app]. split; auto. rewrite <- app_assoc. fold (handed tr). rewrite H2.
    pose proof (take_conserve c n) as Ht. rewrite Ed in Ht. cbn [fst snd] in Ht. now rewrite app_assoc, Ht.
  - injection Es as <- <-. exists fs. cbn [queued handed flat_map snd app]. auto.
  - destruct (next_message c) as [r c1'] eqn:En. injection Es as <- <-. exists fs. cbn [queued handed flat_map snd app].
    split; auto. fold (handed tr). rewrite H2.
    assert (Ho : out c1' = out c).
    { unfold next_message in En. destruct (find_sub crlf2 (inb c)) as [[h a]|]; [|injection En as _ <-; auto].
      destruct (content_length h); [|injection En as _ <-; auto]. destruct (_ <? _)%Z; [injection En as _ <-; auto|].
      destruct (decode_body _); [|injection En as _ <-; auto]. destruct (get_attr _ _); [|injection En as _ <-; auto].
      destruct (seq_eqb _ _); injection En as _ <-; auto. }
    now rewrite Ho.
Qed.

(** * Sequence numbers (C04) *)
Lemma next_seq c r c' : next_message c = (r, c') ->
  seq_out c' = seq_out c /\
  match r with
  | Ok None => seq_in c' = seq_in c
  | Ok (Some m) => seq_in c' = (seq_in c + 1)%Z /\ seq_is m (seq_in c)
  | Err _ => seq_in c' = seq_in c \/ seq_in c' = (seq_in c + 1)%Z
  end.
Proof.
  intros En. unfold next_message in En. destruct (find_sub crlf2 (inb c)) as [[h a]|]; [|injection En as <- <-; auto].
  destruct (content_length h); [|injection En as <- <-; auto]. destruct (_ <? _)%Z; [injection En as <- <-; auto|].
  destruct (decode_body _) as [m|]; [|injection En as <- <-; auto]. destruct (get_attr m _) as [q|] eqn:Eq; [|injection En as <- <-; auto].
  destruct (seq_eqb _ q) eqn:Es; injection En as <- <-; auto. split; auto. split; auto.
  unfold get_attr in Eq. destruct m as [| | | | | | |cc attrs]; try discriminate. unfold seq_is. cbn [attr].
  destruct (dget attrs (s "seq")) as [x|]; [|discriminate]. injection Eq as ->.
  destruct q as [|b|z| | | | |]; cbn [seq_eqb seq_in] in Es; try discriminate; apply Z.eqb_eq in Es; rewrite Es.
  - destruct b; auto.
  - auto.
Qed.
Lemma queue_seq c v r c' : queue_msg c v = (r, c') -> seq_in c' = seq_in c /\ seq_out c' = (seq_out c + 1)%Z /\ (forall n, r = Ok n -> n = seq_out c).
Proof.
  unfold queue_msg. destruct (frame_of _); intros H; injection H as <- <-; cbn [seq_in seq_out]; repeat split; congruence.
Qed.

Lemma step_numbers c o x c' : step c o = (x, c') ->
  seq_out c' = (seq_out c + match o with Queue _ => 1 | _ => 0 end)%Z /\
  (forall v n, (o, x) = (Queue v, OQueue (Ok n)) -> n = seq_out c) /\
  (seq_in c <= seq_in c' <= seq_in c + 1)%Z /\
  (forall m, x = ONext (Ok (Some m)) -> seq_is m (seq_in c) /\ seq_in c' = (seq_in c + 1)%Z) /\
  (next_ok (o, x) -> (forall m, x <> ONext (Ok (Some m))) -> seq_in c' = seq_in c).
Proof.
  destruct o as [v|n|d|]; cbn [step].
  - destruct (queue_msg c v) as [r c1] eqn:E. intros H; injection H as <- <-. destruct (queue_seq _ _ _ _ E) as (H1 & H2 & H3).
    repeat split; try lia; try (intros; discriminate); try congruence. intros v' n' E'. injection E' as <- ->. auto.
  - destruct (data_to_send c n) as [b c1] eqn:E. intros H; injection H as <- <-. unfold data_to_send in E. injection E as <- <-. cbn [seq_in seq_out].
    repeat split; try lia; try (intros; discriminate); auto.
  - intros H; injection H as <- <-. cbn [receive_data seq_in seq_out]. repeat split; try lia; try (intros; discriminate); auto.
  - destruct (next_message c) as [r c1] eqn:E. intros H; injection H as <- <-. destruct (next_seq _ _ _ E) as (H1 & H2).
    repeat split; try lia; try (intros; discriminate).
    + destruct r as [[m|]|e]; [destruct H2|..]; lia.
    + destruct r as [[m|]|e]; [destruct H2|..]; lia.
    + intros. injection H as ->. tauto.
    + injection H as ->. tauto.
    + cbn [next_ok snd]. destruct r as [[m|]|e]; try tauto. intros _ H. exfalso. eapply H; eauto.
Qed.

Fixpoint increasing (l : list Z) : Prop := match l with [] => True | x :: r => (forall y, In y r -> x < y)%Z /\ increasing r end.
Lemma out_numbers ops : forall c,
  (forall n, In n (queue_numbers (fst (run c ops))) -> seq_out c <= n)%Z /\ increasing (queue_numbers (fst (run c ops))) /\
  (Forall queue_ok (fst (run c ops)) -> queue_numbers (fst (run c ops)) = zseq (seq_out c) (length (queue_numbers (fst (run c ops))))).
Proof.
  induction ops as [|o ops IH]; intros c; [cbn; repeat split; intros; tauto|].
  cbn [run]. destruct (step c o) as [x c1] eqn:Es. destruct (run c1 ops) as [tr c2] eqn:Er.
  specialize (IH c1). rewrite Er in IH. cbn [fst] in *. destruct IH as (I1 & I2 & I3).
  destruct (step_numbers _ _ _ _ Es) as (S1 & S2 & _).
  destruct o as [v|n|d|].
  - destruct x as [[n|e]|b| |r]; cbn [queue_numbers flat_map app]; fold (queue_numbers tr).
    1:{ specialize (S2 _ _ eq_refl). subst n. repeat split.
        - intros n [<-|H]; [lia|]. apply I1 in H. lia.
        - intros y Hy. apply I1 in Hy. lia.
        - exact I2.
        - intros Hf. inversion Hf; subst. cbn [length zseq]. rewrite (I3 H2) at 1. now rewrite S1. }
    all: repeat split; auto; [intros n H; apply I1 in H; lia|intros Hf; inversion Hf; subst].
    + cbn [queue_ok] in H1. tauto.
    + cbn [step] in Es. destruct (queue_msg c v); discriminate.
    + cbn [step] in Es. destruct (queue_msg c v); discriminate.
    + cbn [step] in Es. destruct (queue_msg c v); discriminate.
  - cbn [queue_numbers flat_map app]. fold (queue_numbers tr). rewrite Z.add_0_r in S1. rewrite <- S1. repeat split; auto. intros Hf; inversion Hf; auto.
  - cbn [queue_numbers flat_map app]. fold (queue_numbers tr). rewrite Z.add_0_r in S1. rewrite <- S1. repeat split; auto. intros Hf; inversion Hf; auto.
  - cbn [queue_numbers flat_map app]. fold (queue_numbers tr). rewrite Z.add_0_r in S1. rewrite <- S1. repeat split; auto. intros Hf; inversion Hf; auto.
Qed.

Lemma in_numbers ops : forall c, exists ns,
  Forall2 seq_is (accepted (fst (run c ops))) ns /\ (forall n, In n ns -> seq_in c <= n)%Z /\ increasing ns /\
  (Forall next_ok (fst (run c ops)) -> ns = zseq (seq_in c) (length ns)).
Proof.
  induction ops as [|o ops IH]; intros c; [exists []; cbn; repeat split; auto; intros; tauto|].
  cbn [run]. destruct (step c o) as [x c1] eqn:Es. destruct (run c1 ops) as [tr c2] eqn:Er.
  specialize (IH c1). rewrite Er in IH. cbn [fst] in *. destruct IH as (ns & I0 & I1 & I2 & I3).
  destruct (step_numbers _ _ _ _ Es) as (_ & _ & S1 & S2 & S3).
  assert (Hno : (forall m, x <> ONext (Ok (Some m))) -> accepted ((o, x) :: tr) = accepted tr).
  { intros H. unfold accepted at 1. cbn [flat_map snd]. destruct x as [|b| |[[m|]|e]]; auto. exfalso. eapply H; eauto. }
  assert (Hdec : (exists m, x = ONext (Ok (Some m))) \/ (forall m, x <> ONext (Ok (Some m)))).
  { destruct x as [|b| |[[m|]|e]]; eauto; right; discriminate. }
  destruct Hdec as [(m & ->)|Hn].
  - destruct (S2 _ eq_refl) as [Hq Hs]. exists (seq_in c :: ns). cbn [accepted flat_map snd app]. fold (accepted tr).
    repeat split.
    + constructor; auto.
    + intros n [<-|H]; [lia|]. apply I1 in H. lia.
    + intros y Hy. apply I1 in Hy. lia.
    + exact I2.
    + intros Hf; inversion Hf; subst. cbn [length zseq]. rewrite (I3 H2) at 1. now rewrite Hs.
  - exists ns. rewrite Hno by auto. repeat split; auto.
    + intros n H. apply I1 in H. lia.
    + intros Hf; inversion Hf; subst. rewrite <- (S3 H1 Hn). auto.
Qed.
