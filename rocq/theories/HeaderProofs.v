(** Header parsing of the model against HeaderSpec. *)
From Verif Require Import PyBase PyDict Digits JsonModel MsgBase AdapterModel AdapterProofs IntSpec IntProofs HeaderSpec.
From Coq Require Import Lia.
Local Open Scope N_scope.

Lemma starts_iff l sep : startswith l sep = true <-> exists r, l = sep ++ r.
Proof.
  split; [|intros (r & ->); apply startswith_app].
  revert l. induction sep as [|c sep IH]; intros l H; [exists l; auto|].
  destruct l as [|d l]; cbn in H; [discriminate|]. apply andb_prop in H as (E & H). apply N.eqb_eq in E as ->. destruct (IH _ H) as (r & ->). exists r. reflexivity.
Qed.
Lemma find_none sep l : find_sub sep l = None -> ~ occurs sep l.
Proof.
  induction l as [|c l IH]; cbn [find_sub]; destruct (startswith _ sep) eqn:E; try discriminate; intros H (a & b & X).
  - destruct a; [|discriminate]. cbn in X. rewrite X, startswith_app in E. discriminate.
  - destruct a as [|d a]; cbn in X; [rewrite X, startswith_app in E; discriminate|]. injection X as -> X.
    destruct (find_sub sep l) as [[? ?]|]; [discriminate|]. apply (IH eq_refl). exists a, b. auto.
Qed.
Lemma find_first sep l a b : find_sub sep l = Some (a, b) -> first_at sep l a b.
Proof.
  intros H. split; [now apply find_sub_sound|]. revert a b H. induction l as [|c l IH]; intros a b; cbn [find_sub]; destruct (startswith _ sep) eqn:E; intros H a' b' X.
  - injection H as <- <-. cbn. lia.
  - discriminate.
  - injection H as <- <-. cbn. lia.
  - destruct (find_sub sep l) as [[a0 b0]|]; [|discriminate]. injection H as <- <-.
    destruct a' as [|d a']; cbn in X; [rewrite X, startswith_app in E; discriminate|]. injection X as -> X. specialize (IH _ _ eq_refl a' b' X). cbn. lia.
Qed.
Lemma app_len_inv (a b c d : list N) : length a = length c -> a ++ b = c ++ d -> a = c /\ b = d.
Proof. revert c. induction a as [|x a IH]; destruct c as [|y c]; cbn; intros L E; try lia; [auto|]. injection E as -> E. destruct (IH c ltac:(lia) E) as (-> & ->). auto. Qed.
Lemma find_first_iff sep l a b : find_sub sep l = Some (a, b) <-> first_at sep l a b.
Proof.
  split; [apply find_first|]. intros (E & L). destruct (find_sub sep l) as [[a0 b0]|] eqn:F.
  - apply find_first in F as (E0 & L0). specialize (L0 _ _ E). specialize (L _ _ E0).
    destruct (app_len_inv a (sep ++ b) a0 (sep ++ b0)) as (-> & X); [lia|congruence|]. destruct (app_len_inv sep b sep b0 eq_refl X) as (_ & ->). reflexivity.
  - destruct (find_none _ _ F). exists a, b. exact E.
Qed.
(** A two-character separator whose characters differ. *)
Lemma first_two x y l r : x <> y -> ~ occurs [x; y] l -> first_at [x; y] (l ++ [x; y] ++ r) l r.
Proof.
  intros XY N. split; [reflexivity|]. intros a b E. destruct (Nat.le_gt_cases (length l) (length a)) as [|G]; [auto|exfalso].
  assert (P : exists d t, l = a ++ d :: t).
  { clear N. revert l E G. induction a as [|z a IH]; intros l E G; destruct l as [|w l]; cbn in *; try lia; [exists w, l; auto|].
    injection E as -> E. destruct (IH l E ltac:(lia)) as (d & t & ->). exists d, t. reflexivity. }
  destruct P as (d & t & ->). rewrite <- app_assoc in E. apply app_inv_head in E. cbn in E. injection E as -> E.
  destruct t as [|e t]; cbn in E; injection E; intros.
  - congruence.
  - subst. apply N. exists a, t. reflexivity.
Qed.
Lemma find_len sep l a b : sep <> [] -> find_sub sep l = Some (a, b) -> (length b < length l)%nat.
Proof. intros S H. apply find_sub_sound in H. subst. rewrite !app_length. destruct sep; [congruence|]. cbn. lia. Qed.

(** split *)
Lemma split_sound sep f : sep <> [] -> forall l, (length l <= f)%nat -> join sep (split_max f sep l) = l /\ split_max f sep l <> [] /\ forall x, In x (split_max f sep l) -> ~ occurs sep x.
Proof.
  intros S. induction f as [|f IH]; intros l L.
  - destruct l; [|cbn in L; lia]. cbn. repeat split; [discriminate|]. intros x [<-|[]] (a & b & E). destruct a; [destruct sep; [congruence|discriminate]|discriminate].
  - cbn [split_max]. destruct (find_sub sep l) as [[a b]|] eqn:F.
    + pose proof (find_len _ _ _ _ S F) as FL. destruct (IH b ltac:(lia)) as (J & NE & O). split; [|split; [discriminate|]].
      * cbn [join]. destruct (split_max f sep b) eqn:Q; [congruence|]. rewrite J. symmetry. now apply find_sub_sound.
      * intros x [<-|I]; [|auto]. intros (c & d & E). apply find_first in F as (E1 & M). specialize (M c (d ++ sep ++ b)). subst l a.
        rewrite <- !app_assoc in M. specialize (M eq_refl). rewrite !app_length in M. destruct sep; [congruence|]. cbn in M. lia.
    + cbn. repeat split; [discriminate|]. intros x [<-|[]]. now apply find_none.
Qed.
Lemma split_two x y f : x <> y -> forall ls, ls <> [] -> (forall l, In l ls -> ~ occurs [x; y] l) -> (length ls <= S f)%nat -> split_max f [x; y] (join [x; y] ls) = ls.
Proof.
  intros XY. induction f as [|f IH]; intros ls NE O L.
  - destruct ls as [|a [|b ls]]; [congruence|reflexivity|cbn in L; lia].
  - destruct ls as [|a [|b ls]]; [congruence| |].
    + cbn [join split_max]. destruct (find_sub [x; y] a) as [[u v]|] eqn:F; [|reflexivity]. apply find_sub_sound in F. destruct (O a (or_introl eq_refl)). exists u, v. auto.
    + change (join [x; y] (a :: b :: ls)) with (a ++ [x; y] ++ join [x; y] (b :: ls)). cbn [split_max].
      rewrite (proj2 (find_first_iff [x; y] _ _ _) (first_two _ _ _ _ XY (O a (or_introl eq_refl)))).
      f_equal. apply IH; [discriminate|intros; apply O; now right|cbn in *; lia].
Qed.
Lemma join_len sep ls : sep <> [] -> (length ls <= S (length (join sep ls)))%nat.
Proof.
  intros S. induction ls as [|a [|b ls] IH]; cbn; try lia. rewrite !app_length. cbn [join] in IH. destruct sep; [congruence|]. cbn [length] in *. lia.
Qed.
Lemma header_pair_iff h k v : header_pair h = Ok (k, v) <-> (h = k ++ s ": " ++ v /\ ~ occurs (s ": ") k /\ ~ occurs (s ": ") v).
Proof.
  unfold header_pair. change (s ": ") with [58; 32]. split.
  - cbn [split_max]. destruct (find_sub [58; 32] h) as [[a b]|] eqn:F; [|discriminate]. destruct (find_sub [58; 32] b) as [[? ?]|] eqn:F2; [discriminate|].
    intros H. injection H as <- <-. split; [now apply find_sub_sound|]. split; [|now apply find_none]. intros (c & d & E). apply find_first in F as (E1 & M).
    specialize (M c (d ++ [58; 32] ++ b)). subst h a. rewrite <- !app_assoc in M. specialize (M eq_refl). rewrite !app_length in M. cbn in M. lia.
  - intros (-> & K & V). cbn [split_max]. rewrite (proj2 (find_first_iff [58; 32] _ _ _) (first_two 58 32 k v ltac:(discriminate) K)).
    destruct (find_sub [58; 32] v) as [[u w]|] eqn:F; [|reflexivity]. apply find_sub_sound in F. destruct V. exists u, w. auto.
Qed.
Lemma mapM_pairs ls kvs : mapM header_pair ls = Ok kvs <-> (ls = map (fun kv => fst kv ++ s ": " ++ snd kv) kvs /\ forall k v, In (k, v) kvs -> ~ occurs (s ": ") k /\ ~ occurs (s ": ") v).
Proof.
  revert kvs. induction ls as [|l ls IH]; intros kvs.
  - rewrite mapM_nil. split; [intros H; injection H as <-; split; [reflexivity|intros ? ? []]|]. intros (E & _). destruct kvs; [reflexivity|discriminate].
  - rewrite mapM_cons. split.
    + destruct (header_pair l) as [[k v]|] eqn:P; cbn [bind]; [|discriminate]. destruct (mapM header_pair ls) as [r|] eqn:M; cbn [bind]; [|discriminate]. intros H. injection H as <-.
      apply header_pair_iff in P as (-> & K & V). destruct (proj1 (IH r) eq_refl) as (-> & O). split; [reflexivity|]. intros k' v' [X|X]; [injection X as <- <-; auto|auto].
    + intros (E & O). destruct kvs as [|[k v] kvs]; [discriminate|]. cbn [map fst snd] in E. injection E as -> ->.
      rewrite (proj2 (header_pair_iff _ k v)) by (split; [reflexivity|apply O; now left]). cbn [bind].
      rewrite (proj2 (IH kvs)) by (split; [reflexivity|intros; apply O; now right]). reflexivity.
Qed.
Lemma parse_iff hdr kvs : mapM header_pair (split_all crlf hdr) = Ok kvs <-> fields hdr kvs.
Proof.
  unfold split_all, crlf. rewrite mapM_pairs. unfold fields. split.
  - intros (E & O). destruct (split_sound [13; 10] (length hdr) ltac:(discriminate) hdr (le_n _)) as (J & NE & OC). rewrite E in *. split; [intros ->; apply NE; reflexivity|]. split; [auto|].
    intros k v I. split; [|auto]. apply OC. apply in_map_iff. exists (k, v). auto.
  - intros (NE & -> & O). split; [|intros k v I; apply (O k v I)]. apply split_two; [discriminate|destruct kvs; [congruence|discriminate]| |].
    + intros l I. apply in_map_iff in I as ([k v] & <- & I). apply (O k v I).
    + apply join_len. discriminate.
Qed.
(** the last one wins *)
Lemma dget_last (l : list (bytes * bytes)) k : forall d v, dget (fold_left (fun d kv => dset d (fst kv) (snd kv)) l d) k = Some v <->
  (exists pre post, l = pre ++ (k, v) :: post /\ ~ In k (map fst post)) \/ (dget d k = Some v /\ ~ In k (map fst l)).
Proof.
  induction l as [|[k0 v0] l IH]; intros d v; cbn [fold_left fst snd map].
  - split; [auto|]. intros [(pre & post & E & _)|(E & _)]; [destruct pre; discriminate|auto].
  - rewrite IH, dget_dset. split.
    + intros [(pre & post & -> & N)|(E & N)]; [left; exists ((k0, v0) :: pre), post; auto|].
      destruct (eqb_spec k0 k) as [->|NE]; [injection E as <-; left; exists [], l; auto|right; split; [auto|]]. intros [X|X]; auto.
    + intros [(pre & post & E & N)|(E & N)].
      * destruct pre as [|p pre]; cbn in E; [injection E as -> -> ->|injection E as <- ->; left; eauto].
        right. split; [|auto]. destruct (eqb_spec k k); congruence.
      * right. split; [|intros X; apply N; now right]. destruct (eqb_spec k0 k) as [->|NE]; [destruct N; now left|auto].
Qed.
Theorem content_length_spec hdr z : content_length hdr = Ok z <-> declares_length hdr z.
Proof.
  unfold content_length, parse_headers, declares_length. split.
  - destruct (mapM header_pair (split_all crlf hdr)) as [kvs|] eqn:M; cbn [bind]; [|discriminate]. apply parse_iff in M.
    destruct (dget _ content_length_name) as [v|] eqn:D; [|discriminate]. intros P. apply py_int_spec in P.
    apply dget_last in D as [(pre & post & -> & N)|(X & _)]; [|discriminate]. exists pre, v, post. auto.
  - intros (pre & v & post & F & N & L). apply parse_iff in F. rewrite F. cbn [bind].
    rewrite (proj2 (dget_last _ content_length_name [] v)) by (left; eauto). now apply py_int_spec.
Qed.
Lemma header_pair_err' h e : header_pair h = Err e -> e = ValueError.
Proof. unfold header_pair. destruct (split_max 2 (s ": ") h) as [|? [|? [|]]]; congruence. Qed.
Lemma content_length_err hdr e : content_length hdr = Err e -> e = ValueError.
Proof.
  unfold content_length, parse_headers. destruct (mapM header_pair (split_all crlf hdr)) as [l|x] eqn:M; cbn [bind].
  - destruct (dget _ content_length_name); [apply py_int_err|congruence].
  - intros H. injection H as <-. revert x M. generalize (split_all crlf hdr). induction l as [|h l IH]; intros x M; [discriminate|]. rewrite mapM_cons in M.
    destruct (header_pair h) eqn:P; cbn [bind] in M; [destruct (mapM header_pair l); cbn [bind] in M; [discriminate|apply IH; congruence]|]. injection M as <-. now apply header_pair_err' in P.
Qed.
