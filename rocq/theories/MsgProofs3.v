From Verif Require Import PyBase PyDict JsonModel JsonProofs MsgBase MsgTables MsgModel MsgSpec TruthSpec MsgProofs MsgProofs2.
From Coq Require Import ZifyBool ZifyNat ZifyN.

(** * Fuel of nested unpacking is irrelevant *)
Section Congr.
  Variables (sub sub' : cid -> json -> res pval) (n : nat).
  Hypothesis Hs : forall c j, jdepth j < n -> sub c j = sub' c j.

  Lemma apply_unpacker_congr u j : jdepth j < n -> apply_unpacker sub u j = apply_unpacker sub' u j.
  Proof. intros H. destruct u; cbn [apply_unpacker]; auto. Qed.
  Lemma mapM_congr {A B} (f g : A -> res B) l : (forall x, In x l -> f x = g x) -> mapM f l = mapM g l.
  Proof.
    induction l as [|x l IH]; intros H; auto. rewrite !mapM_cons, H by (left; auto).
    rewrite IH by (intros; apply H; right; auto). reflexivity.
  Qed.
  Lemma unpack_field_congr u j : jdepth j < n -> unpack_field sub u j = unpack_field sub' u j.
  Proof.
    intros H. destruct j; cbn [unpack_field]; try (apply apply_unpacker_congr; exact H).
    erewrite mapM_congr; [reflexivity|]. intros x Hx. apply apply_unpacker_congr.
    apply jdepth_In_arr in Hx. lia.
  Qed.
  Definition qdeep (q : list (mapping * json)) : Prop := forall p, In p q -> jdepth (snd p) <= n.
  Lemma level_items_congr c top m items : (forall k v, In (k, v) items -> jdepth v < n) ->
    level_items sub c top m items = level_items sub' c top m items.
  Proof.
    induction items as [|[k v] items IH]; intros H; [reflexivity|]. cbn [level_items].
    rewrite IH by (intros; eapply H; right; eauto).
    assert (Hv : jdepth v < n) by (eapply H; left; eauto).
    destruct v; auto; destruct (top && eqb k (s "__types")); auto; destruct (dget m k) as [[f|m']|]; auto;
      destruct (find_field c f); auto; rewrite unpack_field_congr by exact Hv; reflexivity.
  Qed.
  Lemma level_items_deep sb c top m items a q : level_items sb c top m items = Ok (a, q) ->
    forall p, In p q -> exists k, In (k, snd p) items.
  Proof.
    revert a q. induction items as [|[k v] items IH]; intros a q; cbn [level_items].
    - intros H; injection H as <- <-. intros p [].
    - intros H.
      assert (Hgen : forall X, X = level_items sb c top m items -> forall a q, X = Ok (a, q) -> forall p, In p q -> exists k0, In (k0, snd p) ((k, v) :: items)).
      { intros X -> a0 q0 E p Hp. destruct (IH _ _ E p Hp) as (k0 & Hk). exists k0. right; auto. }
      assert (Hcons : forall mp, (do (a0, q0) <- level_items sb c top m items; Ok (a0, (mp, v) :: q0)) = Ok (a, q) -> forall p, In p q -> exists k0, In (k0, snd p) ((k, v) :: items)).
      { intros mp E p Hp. destruct (level_items sb c top m items) as [[a0 q0]|] eqn:El; cbn [bind] in E; [|discriminate].
        injection E as <- <-. destruct Hp as [<-|Hp]; [exists k; left; auto|]. eapply Hgen; eauto. }
      destruct v; try (eapply Hgen; [reflexivity|exact H]);
        destruct (top && eqb k (s "__types")); try (eapply Hcons; exact H);
        destruct (dget m k) as [[f|m']|]; try (eapply Hgen; [reflexivity|exact H]); try (eapply Hcons; exact H);
        destruct (find_field c f); try discriminate;
        (destruct (unpack_field sb (funp f0) _); cbn [bind] in H; [|discriminate];
         destruct (level_items sb c top m items) as [[a1 q1]|] eqn:El; cbn [bind] in H; [|discriminate];
         injection H as <- <-; eapply Hgen; [reflexivity|reflexivity]).
  Qed.
  Lemma do_pair_congr c top p : jdepth (snd p) <= n -> do_pair sub c top p = do_pair sub' c top p.
  Proof.
    intros H. unfold do_pair. destruct (items_of (snd p)) as [items|] eqn:Ei; cbn [bind]; auto.
    destruct (fst p); auto. apply level_items_congr. intros k v Hin.
    destruct (snd p); cbn [items_of] in Ei; try discriminate. injection Ei as ->.
    apply jdepth_In_obj in Hin. lia.
  Qed.
  Lemma do_pair_deep sb c top p a q : jdepth (snd p) <= n -> do_pair sb c top p = Ok (a, q) -> qdeep q.
  Proof.
    intros H E p' Hp'. unfold do_pair in E. destruct (snd p) eqn:Ep; cbn [items_of bind] in E; try discriminate.
    destruct (fst p).
    - destruct (level_items_deep _ _ _ _ _ _ _ E _ Hp') as (k & Hk). apply jdepth_In_obj in Hk. lia.
    - destruct (existsb _ d); [discriminate|]. injection E as <- <-. destruct Hp'.
  Qed.
  Lemma run_queue_congr f c top q : qdeep q -> run_queue sub f c top q = run_queue sub' f c top q.
  Proof.
    revert top q. induction f as [|f IH]; intros top q Hq; destruct q as [|p q]; auto.
    rewrite !run_queue_cons.
    rewrite (mapM_congr (do_pair sub c top) (do_pair sub' c top)) by (intros x Hx; apply do_pair_congr, Hq, Hx).
    destruct (mapM (do_pair sub' c top) (p :: q)) as [rs|] eqn:Em; cbn [bind]; auto.
    rewrite IH; auto. intros p' Hp'. apply in_flat_map in Hp'. destruct Hp' as ([a q'] & Hin & Hp').
    assert (Hex : exists p0, In p0 (p :: q) /\ do_pair sub' c top p0 = Ok (a, q')).
    { clear -Em Hin. revert rs Em Hin. induction (p :: q) as [|x l IHl]; intros rs Em Hin.
      - rewrite mapM_nil in Em. injection Em as <-. destruct Hin.
      - rewrite mapM_cons in Em. destruct (do_pair sub' c top x) eqn:Ex; cbn [bind] in Em; [|discriminate].
        destruct (mapM (do_pair sub' c top) l) eqn:El; cbn [bind] in Em; [|discriminate]. injection Em as <-.
        destruct Hin as [->|Hin]; [exists x; split; [left|]; auto|].
        destruct (IHl _ eq_refl Hin) as (p0 & H1 & H2). exists p0; split; [right|]; auto. }
    destruct Hex as (p0 & Hp0 & E0). eapply do_pair_deep; [apply Hq, Hp0|exact E0|exact Hp'].
  Qed.
  Lemma unpack1_congr c j : jdepth j <= n -> unpack1 sub c j = unpack1 sub' c j.
  Proof.
    intros H. assert (Hd : default_unpack sub c j = default_unpack sub' c j).
    { unfold default_unpack. rewrite (run_queue_congr 8 c true); auto. intros p [<-|[]]. exact H. }
    destruct c; try exact Hd; reflexivity.
  Qed.
End Congr.

Lemma unpack_obj_fuel f : forall f' c j, jdepth j < f -> jdepth j < f' -> unpack_obj f c j = unpack_obj f' c j.
Proof.
  induction f as [|f IH]; intros f' c j H H'; [lia|]. destruct f' as [|f']; [lia|]. cbn [unpack_obj].
  apply (unpack1_congr _ _ (jdepth j)); [|lia]. intros c0 j0 Hj0. apply IH; lia.
Qed.
Lemma cls_unpack_fuel f c j : jdepth j < f -> cls_unpack c j = unpack_obj f c j.
Proof. intros H. unfold cls_unpack. apply unpack_obj_fuel; lia. Qed.

(** * Noise members (C09) *)
Lemma noise_id_eq u j j' : noise u j j' -> u = UId \/ (exists e, u = UEnum e) -> j = j'.
Proof.
  revert u j j'.
  fix IH 4. intros u j j' H Hu. destruct H as [u j|u l l' Hl|c d d' Hc Hd].
  - reflexivity.
  - f_equal. revert Hu. induction Hl as [u|u x x' l l' Hx Hl IHl]; intros Hu; auto.
    f_equal; [eapply IH; eauto|auto].
  - destruct Hu as [|(e & H)]; discriminate.
Qed.

Section Noise.
  Variable sub : cid -> json -> res pval.
  Hypothesis Hs : forall u j j', noise u j j' -> apply_unpacker sub u j = apply_unpacker sub u j'.

  Lemma noise_field u v v' : noise u v v' -> unpack_field sub u v = unpack_field sub u v'.
  Proof.
    intros H. destruct H as [u j|u l l' Hl|c d d' Hc Hd]; auto.
    - cbn [unpack_field].
      assert (E : mapM (apply_unpacker sub u) l = mapM (apply_unpacker sub u) l').
      { induction Hl as [u|u x x' l l' Hx Hl IHl]; auto. rewrite !mapM_cons, (Hs _ _ _ Hx), IHl. reflexivity. }
      now rewrite E.
    - cbn [unpack_field]. apply Hs. constructor; auto.
  Qed.

  Definition qrel (c : cid) (p p' : mapping * json) : Prop :=
    p = p' \/ exists m x x', p = (Map m, JObj x) /\ p' = (Map m, JObj x') /\ noise_members c false m x x'.
  Definition orel (c : cid) (r r' : res (list (pystr * pval) * list (mapping * json))) : Prop :=
    match r, r' with
    | Ok (a, q), Ok (a', q') => a = a' /\ Forall2 (qrel c) q q'
    | Err e, Err e' => e = e'
    | _, _ => False
    end.
  Lemma qrel_refl c q : Forall2 (qrel c) q q.
  Proof. induction q; constructor; auto. now left. Qed.
  Lemma orel_refl c r : orel c r r.
  Proof. destruct r as [[a q]|e]; cbn; auto. split; auto. apply qrel_refl. Qed.
  Lemma orel_consq c r r' p p' : orel c r r' -> qrel c p p' ->
    orel c (do (a, q) <- r; Ok (a, p :: q)) (do (a, q) <- r'; Ok (a, p' :: q)).
  Proof.
    intros H Hp. destruct r as [[a q]|e], r' as [[a' q']|e']; cbn in *; try tauto.
    destruct H as [-> H]. split; auto.
  Qed.
  Lemma orel_consa c r r' (x : pystr * pval) : orel c r r' ->
    orel c (do (a, q) <- r; Ok (x :: a, q)) (do (a, q) <- r'; Ok (x :: a, q)).
  Proof.
    intros H. destruct r as [[a q]|e], r' as [[a' q']|e']; cbn in *; try tauto.
    destruct H as [-> H]. split; auto.
  Qed.

  Lemma level_items_cons c top m k v items :
    level_items sub c top m ((k, v) :: items) =
    (let rest := level_items sub c top m items in
      match v with
      | JNull => rest
      | _ =>
        if top && eqb k (s "__types") then do (a, q) <- rest; Ok (a, (Types, v) :: q)
        else match dget m k with
             | None => rest
             | Some (MN m') => do (a, q) <- rest; Ok (a, (Map m', v) :: q)
             | Some (MF f) =>
               match find_field c f with
               | None => Err TypeError
               | Some fd => do x <- unpack_field sub (funp fd) v; do (a, q) <- rest; Ok ((f, x) :: a, q)
               end
             end
      end).
  Proof. reflexivity. Qed.

  Definition is_null (j : json) : bool := match j with JNull => true | _ => false end.
  Lemma level_items_cons' c top m k v items :
    level_items sub c top m ((k, v) :: items) =
    (let rest := level_items sub c top m items in
      if is_null v then rest else
        if top && eqb k (s "__types") then do (a, q) <- rest; Ok (a, (Types, v) :: q)
        else match dget m k with
             | None => rest
             | Some (MN m') => do (a, q) <- rest; Ok (a, (Map m', v) :: q)
             | Some (MF f) =>
               match find_field c f with
               | None => Err TypeError
               | Some fd => do x <- unpack_field sub (funp fd) v; do (a, q) <- rest; Ok ((f, x) :: a, q)
               end
             end).
  Proof. rewrite level_items_cons. destruct v; reflexivity. Qed.
  Lemma noise_null u v v' : noise u v v' -> is_null v = is_null v'.
  Proof. intros H; destruct H; reflexivity. Qed.

  Lemma level_noise c top m d d' : noise_members c top m d d' ->
    (top = true -> dget m (s "__types") = None) ->
    orel c (level_items sub c top m d) (level_items sub c top m d').
  Proof.
    intros H. induction H as [c top m|c top m k v d d' Hd IH|c top m k f fd v v' d d' Hk Hf Hv Hd IH
      |c top m k m' x x' d d' Hk Hx _ Hd IH|c top m k d d' Hd IH|c top m k v d d' Hk Ht Hd IH]; intros Htt.
    - cbn. split; auto.
    - specialize (IH Htt). rewrite !level_items_cons'. cbn zeta.
      destruct (is_null v); auto. destruct (top && eqb k (s "__types")); [apply orel_consq; [auto|now left]|].
      destruct (dget m k) as [[f|m']|]; auto; [|apply orel_consq; [auto|now left]].
      destruct (find_field c f); [|reflexivity]. destruct (unpack_field sub (funp f0) v); [|reflexivity].
      cbn [bind]. now apply orel_consa.
    - specialize (IH Htt). rewrite !level_items_cons'. cbn zeta. rewrite <- (noise_null _ _ _ Hv).
      destruct (is_null v); auto. destruct (top && eqb k (s "__types")) eqn:Et.
      + apply andb_true_iff in Et. destruct Et as [-> Ek]. apply eqb_eq in Ek. subst k. rewrite (Htt eq_refl) in Hk. discriminate.
      + rewrite Hk, Hf. rewrite <- (noise_field _ _ _ Hv). destruct (unpack_field sub (funp fd) v); [|reflexivity].
        cbn [bind]. now apply orel_consa.
    - specialize (IH Htt). rewrite !level_items_cons'. cbn zeta. cbn [is_null].
      destruct (top && eqb k (s "__types")) eqn:Et.
      + apply andb_true_iff in Et. destruct Et as [-> Ek]. apply eqb_eq in Ek. subst k. rewrite (Htt eq_refl) in Hk. discriminate.
      + rewrite Hk. apply orel_consq; auto. right. exists m', x, x'. auto.
    - specialize (IH Htt). rewrite (level_items_cons' c top m k JNull d'). cbn [is_null]. exact IH.
    - specialize (IH Htt). rewrite (level_items_cons' c top m k v d'). cbn zeta. rewrite Hk.
      assert (E : top && eqb k (s "__types") = false).
      { destruct top; auto. cbn [andb]. apply eqb_neq. auto. }
      rewrite E. destruct (is_null v); exact IH.
  Qed.

  Lemma do_pair_noise c p p' : qrel c p p' -> orel c (do_pair sub c false p) (do_pair sub c false p').
  Proof.
    intros [<-|(m & x & x' & -> & -> & H)]; [apply orel_refl|].
    unfold do_pair. cbn [snd items_of bind fst]. apply level_noise; [exact H|discriminate].
  Qed.

  Lemma mapM_noise c q q' : Forall2 (qrel c) q q' ->
    match mapM (do_pair sub c false) q, mapM (do_pair sub c false) q' with
    | Ok rs, Ok rs' => flat_map fst rs = flat_map fst rs' /\ Forall2 (qrel c) (flat_map snd rs) (flat_map snd rs')
    | Err e, Err e' => e = e'
    | _, _ => False
    end.
  Proof.
    intros H. induction H as [|p p' q q' Hp Hq IH]; [cbn; split; [auto|constructor]|].
    rewrite !mapM_cons. pose proof (do_pair_noise c p p' Hp) as Ho.
    destruct (do_pair sub c false p) as [[a b]|], (do_pair sub c false p') as [[a' b']|]; cbn in Ho; try tauto; cbn [bind]; try exact Ho.
    destruct Ho as [-> Ho].
    destruct (mapM (do_pair sub c false) q), (mapM (do_pair sub c false) q'); try tauto; cbn [bind]; auto.
    destruct IH as [E1 E2]. cbn [flat_map fst snd]. rewrite E1. split; auto. now apply Forall2_app.
  Qed.

  Lemma run_queue_noise f c q q' : Forall2 (qrel c) q q' -> run_queue sub f c false q = run_queue sub f c false q'.
  Proof.
    revert q q'. induction f as [|f IH]; intros q q' H.
    - destruct H; reflexivity.
    - pose proof (mapM_noise c q q' H) as Hm. destruct H as [|p p' q q' Hp Hq]; [reflexivity|].
      rewrite !run_queue_cons.
      destruct (mapM (do_pair sub c false) (p :: q)), (mapM (do_pair sub c false) (p' :: q')); try tauto; cbn [bind]; try congruence.
      destruct Hm as [E1 E2]. rewrite (IH _ _ E2), E1. reflexivity.
  Qed.

  Lemma default_unpack_noise c d d' : noise_members c true (dapmap c) d d' ->
    default_unpack sub c (JObj d) = default_unpack sub c (JObj d').
  Proof.
    intros H. unfold default_unpack. rewrite !run_queue_cons, !mapM_cons, !mapM_nil.
    assert (Hty : dget (dapmap c) (s "__types") = None).
    { apply dget_None. intros Hin. unfold dkeys in Hin. apply in_map_iff in Hin. destruct Hin as (ke & E & Hin).
      apply entry_ok in Hin. unfold entryb in Hin. rewrite !andb_true_iff in Hin. destruct Hin as [[_ Hn] _].
      rewrite E in Hn. rewrite eqb_refl in Hn. discriminate. }
    pose proof (level_noise c true (dapmap c) d d' H (fun _ => Hty)) as Ho.
    unfold do_pair. cbn [snd items_of bind fst].
    destruct (level_items sub c true (dapmap c) d) as [[a q]|], (level_items sub c true (dapmap c) d') as [[a' q']|]; cbn in Ho; try tauto; cbn [bind]; try congruence.
    destruct Ho as [-> Ho]. cbn [flat_map fst snd]. rewrite !app_nil_r.
    rewrite (run_queue_noise 7 c q q' Ho). reflexivity.
  Qed.
End Noise.

Lemma unpack_noise f : forall u j j', noise u j j' -> apply_unpacker (unpack_obj f) u j = apply_unpacker (unpack_obj f) u j'.
Proof.
  induction f as [|f IH]; intros u j j' H.
  - destruct u as [|e|c]; cbn [apply_unpacker unpack_obj]; auto; [|]; erewrite (noise_id_eq _ j j'); eauto.
  - destruct u as [|e|c]; [erewrite (noise_id_eq _ j j'); eauto|erewrite (noise_id_eq _ j j'); eauto|].
    cbn [apply_unpacker unpack_obj].
    inversion H as [|u l l' Hl|c' d d' Hc Hd]; subst; [reflexivity|destruct c; reflexivity|].
    pose proof (default_unpack_noise _ IH c d d' Hd) as E. destruct c; try exact E; discriminate.
Qed.

Lemma cls_unpack_noise c d d' : custom c = false -> noise_members c true (dapmap c) d d' ->
  cls_unpack c (JObj d) = cls_unpack c (JObj d').
Proof.
  intros Hc H. set (f := S (Nat.max (jdepth (JObj d)) (jdepth (JObj d')))).
  rewrite (cls_unpack_fuel f), (cls_unpack_fuel f c (JObj d')) by lia.
  apply (unpack_noise f (UObj c)). constructor; auto.
Qed.

(** members of the top level that were there are still there *)
Lemma noise_dget c m d d' k f : noise_members c true m d d' -> NoDup (map fst d') -> dget m k = Some (MF f) ->
  (forall fd, find_field c f = Some fd -> funp fd = UId \/ exists e, funp fd = UEnum e) ->
  forall v, dget d k = Some v -> dget d' k = Some v.
Proof.
  intros H. remember true as top eqn:Etop. induction H as [c top m|c top m k0 v0 d d' Hd IH|c top m k0 f0 fd v0 v0' d d' Hk Hf Hv Hd IH
      |c top m k0 m' x x' d d' Hk Hx _ Hd IH|c top m k0 d d' Hd IH|c top m k0 v0 d d' Hk Ht Hd IH]; intros Hnd Hm Hfd v Hv0.
  - discriminate.
  - inversion Hnd; subst. cbn [dget] in *. destruct (eqb k0 k); auto.
  - inversion Hnd; subst. cbn [dget] in *. destruct (eqb_spec k0 k) as [->|]; auto.
    injection Hv0 as <-. rewrite Hk in Hm. injection Hm as ->. f_equal. symmetry. eapply noise_id_eq; eauto.
  - inversion Hnd; subst. cbn [dget] in *. destruct (eqb_spec k0 k) as [->|]; auto. congruence.
  - inversion Hnd; subst. cbn [dget] in *. destruct (eqb_spec k0 k) as [->|]; auto.
    exfalso. apply H1. specialize (IH eq_refl H2 Hm Hfd v Hv0). apply dget_In in IH. apply (in_map fst) in IH. exact IH.
  - inversion Hnd; subst. cbn [dget] in *. destruct (eqb_spec k0 k) as [->|]; auto. congruence.
Qed.

(** * Dispatch (C08) *)
Lemma build_class c a v : build c a = Ok v -> class_of v = Some c.
Proof. unfold build. destruct (mapM _ (fields c)); cbn [bind]; [|discriminate]. intros H; injection H as <-. reflexivity. Qed.
Lemma default_unpack_class sub c j v : default_unpack sub c j = Ok v -> class_of v = Some c.
Proof. unfold default_unpack. destruct (run_queue _ _ _ _ _); cbn [bind]; [|discriminate]. apply build_class. Qed.
Lemma cls_unpack_class c j v : cls_unpack c j = Ok v -> class_of v = Some c.
Proof.
  unfold cls_unpack. cbn [unpack_obj].
  assert (Hd : default_unpack (unpack_obj (jdepth j)) c j = Ok v -> class_of v = Some c) by apply default_unpack_class.
  destruct c; try exact Hd; cbn [unpack1]; unfold attach_unpack, launch_unpack; destruct j; try discriminate;
    unfold getitem; destruct (dget d (s "arguments")) as [a|]; cbn [bind]; try discriminate; destruct a as [| | | | |ja]; try discriminate;
    unfold pop_default; destruct (dget d (s "seq")); cbn [bind]; try discriminate; apply build_class.
Qed.

Definition declb (kind : mtype) (tc : pystr * cid) : bool :=
  let c := snd tc in
  let ty := match kind with MReq => "request" | MResp => "response" | MEvt => "event" end%string in
  let fn := match kind with MEvt => "event" | _ => "command" end%string in
  let en := match kind with MEvt => E_EventType | _ => E_Command end in
  match field_default c "message_type" with
  | Some (PEnum E_MessageType x) => eqb x (s ty) | _ => false end &&
  match field_default c fn with
  | Some (PEnum E_Command x) => match en with E_Command => eqb x (fst tc) | _ => false end
  | Some (PEnum E_EventType x) => match en with E_EventType => eqb x (fst tc) | _ => false end
  | _ => false end.
Lemma declb_ok kind t c : declb kind (t, c) = true <-> declares c kind t.
Proof.
  unfold declb, declares. cbn [fst snd].
  destruct kind; cbv zeta; cbn iota; rewrite andb_true_iff;
    (destruct (field_default c "message_type") as [[| | | | | |[] x|]|];
       try (split; [intros [? _]; discriminate|intros [? _]; discriminate]);
     rewrite eqb_eq;
     match goal with |- context [match ?X with Some _ => _ | None => false end] => destruct X as [[| | | | | |[] y|]|] end;
       try (split; [intros [_ ?]; discriminate|intros [_ ?]; discriminate]);
     rewrite eqb_eq; split; intros [H1 H2]; split; congruence).
Qed.
Definition reg_decl_ok (kind : mtype) : bool :=
  forallb (fun tc => declb kind tc || match kind, snd tc with MResp, C_ErrorResponse => eqb (fst tc) (s "error") | _, _ => false end) (reg_of kind).
Lemma reg_decl kind t c : In (t, c) (reg_of kind) -> declares c kind t \/ (kind = MResp /\ t = s "error" /\ c = C_ErrorResponse).
Proof.
  assert (H : reg_decl_ok kind = true) by (destruct kind; vm_compute; reflexivity).
  unfold reg_decl_ok in H. rewrite forallb_forall in H. intros Hin. specialize (H _ Hin). apply orb_true_iff in H.
  destruct H as [H|H]; [left; now apply declb_ok|right]. cbn [snd fst] in H.
  destruct kind; try discriminate. destruct c; try discriminate. apply eqb_eq in H. auto.
Qed.
(** conversely every class that declares a command is found under it *)
Lemma decl_reg kind t c : declares c kind t -> dget (reg_of kind) t = Some c.
Proof.
  intros H. destruct kind, c; unfold declares in H;
    first [ (* not a class of this kind *) destruct H as [H _]; vm_compute in H; discriminate
          | destruct H as [_ H]; vm_compute in H; first [discriminate | injection H as <-; vm_compute; reflexivity] ].
Qed.

Lemma truthy_falsy j : truthy j = false <-> falsy j.
Proof.
  unfold falsy. split.
  - destruct j as [|[]|z|[]|[]|[]]; cbn; intros H; try discriminate; auto 10.
    apply Bool.negb_false_iff, Z.eqb_eq in H. subst. auto.
  - intros [-> |[-> |[-> |[-> |[-> | ->]]]]]; reflexivity.
Qed.
Lemma truthy_true j : truthy j = true <-> ~ falsy j.
Proof. rewrite <- truthy_falsy. destruct (truthy j); split; congruence. Qed.

Lemma dispatch d v : unpack_msg (JObj d) = Ok v -> exists c, class_of v = Some c /\ selected d c /\ cls_unpack c (JObj d) = Ok v.
Proof.
  cbn [unpack_msg]. unfold getitem. destruct (dget d (s "type")) as [ty|] eqn:Ety; cbn [bind]; [|discriminate].
  destruct ty as [| | |ty| |]; cbn [reg_get bind]; try discriminate.
  destruct (dget registry ty) as [[]|] eqn:Er; [| | |discriminate]; apply dget_In in Er; cbn [registry In] in Er.
  - assert (ty = s "request") as -> by (destruct Er as [E|[E|[E|[]]]]; congruence). clear Er.
    destruct (dget d (s "command")) as [cmd|] eqn:Ec; cbn [bind]; [|discriminate].
    destruct cmd as [| | |cmd| |]; cbn [reg_get bind]; try discriminate.
    destruct (dget reg_request cmd) as [c|] eqn:Er; [|discriminate].
    intros H. exists c. split; [eapply cls_unpack_class; eauto|]. split; [|exact H].
    apply dget_In in Er. destruct (reg_decl MReq _ _ Er) as [Hd|(E & _)]; [|discriminate]. left. eauto.
  - assert (ty = s "response") as -> by (destruct Er as [E|[E|[E|[]]]]; congruence). clear Er.
    destruct (dget d (s "command")) as [cmd|] eqn:Ec; cbn [bind]; [|discriminate].
    destruct (dget d (s "success")) as [su|] eqn:Es; cbn [bind]; [|discriminate].
    destruct (truthy su) eqn:Et.
    + destruct cmd as [| | |cmd| |]; cbn [reg_get bind]; try discriminate.
      destruct (dget reg_response cmd) as [c|] eqn:Er; [|discriminate].
      intros H. exists c. split; [eapply cls_unpack_class; eauto|]. split; [|exact H].
      apply dget_In in Er. destruct (reg_decl MResp _ _ Er) as [Hd|(_ & -> & ->)]; right; left; apply truthy_true in Et; eauto 10.
    + cbn [reg_get bind]. change (dget reg_response (s "error")) with (Some C_ErrorResponse). cbn iota.
      intros H. exists C_ErrorResponse. split; [eapply cls_unpack_class; eauto|]. split; [|exact H].
      right; right; left. apply truthy_falsy in Et. eauto 10.
  - assert (ty = s "event") as -> by (destruct Er as [E|[E|[E|[]]]]; congruence). clear Er.
    destruct (dget d (s "event")) as [cmd|] eqn:Ec; cbn [bind]; [|discriminate].
    destruct cmd as [| | |cmd| |]; cbn [reg_get bind]; try discriminate.
    destruct (dget reg_event cmd) as [c|] eqn:Er; [|discriminate].
    intros H. exists c. split; [eapply cls_unpack_class; eauto|]. split; [|exact H].
    apply dget_In in Er. destruct (reg_decl MEvt _ _ Er) as [Hd|(E & _)]; [|discriminate]. right; right; right. eauto.
Qed.

Lemma selected_unpack d c : selected d c -> (exists x, dget d (s "command") = Some x) \/ (exists x, dget d (s "event") = Some x /\ dget d (s "type") = Some (JStr (s "event"))) ->
  unpack_msg (JObj d) = cls_unpack c (JObj d).
Proof.
  intros [(t & Ht & Hc & Hd)|[(t & su & Ht & Hs & Htr & Hc & Hd)|[(su & Ht & Hs & Htr & ->)|(t & Ht & Hc & Hd)]]] Hx; cbn [unpack_msg]; unfold getitem; rewrite Ht; cbn [bind].
  - change (reg_get registry (JStr (s "request"))) with (@Ok (option mtype) (Some MReq)). cbn [bind]. rewrite Hc. cbn [bind reg_get].
    pose proof (decl_reg MReq _ _ Hd) as E. cbn [reg_of] in E. rewrite E. reflexivity.
  - change (reg_get registry (JStr (s "response"))) with (@Ok (option mtype) (Some MResp)). cbn [bind]. rewrite Hc, Hs. cbn [bind]. apply truthy_true in Htr. rewrite Htr. cbn [reg_get].
    destruct Hd as [Hd|[-> ->]]; [|reflexivity].
    pose proof (decl_reg MResp _ _ Hd) as E. cbn [reg_of] in E. rewrite E. reflexivity.
  - change (reg_get registry (JStr (s "response"))) with (@Ok (option mtype) (Some MResp)). cbn [bind].
    destruct Hx as [(x & Hx)|(x & _ & Hx)]; [|rewrite Hx in Ht; discriminate].
    rewrite Hx, Hs. cbn [bind]. apply truthy_falsy in Htr. rewrite Htr. reflexivity.
  - change (reg_get registry (JStr (s "event"))) with (@Ok (option mtype) (Some MEvt)). cbn [bind]. rewrite Hc. cbn [bind reg_get].
    pose proof (decl_reg MEvt _ _ Hd) as E. cbn [reg_of] in E. rewrite E. reflexivity.
Qed.
