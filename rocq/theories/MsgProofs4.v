From Verif Require Import PyBase PyDict JsonModel JsonProofs MsgBase MsgTables MsgModel MsgSpec TruthSpec MsgProofs MsgProofs2 MsgProofs3.
From Coq Require Import ZifyBool ZifyNat ZifyN.

Lemma unknown_type d t : dget d (s "type") = Some (JStr t) ->
  t <> s "request" -> t <> s "response" -> t <> s "event" -> unpack_msg (JObj d) = Err ValueError.
Proof.
  intros Ht H1 H2 H3. cbn [unpack_msg]. unfold getitem. rewrite Ht. cbn [bind reg_get].
  destruct (dget registry t) as [m|] eqn:E; [|reflexivity].
  apply dget_In in E. cbn [registry In] in E. destruct E as [E|[E|[E|[]]]]; congruence.
Qed.
Lemma unknown_name d kind t :
  (match kind with
   | MReq => dget d (s "type") = Some (JStr (s "request")) /\ dget d (s "command") = Some (JStr t)
   | MResp => dget d (s "type") = Some (JStr (s "response")) /\ dget d (s "command") = Some (JStr t) /\
              t <> s "error" /\ exists su, dget d (s "success") = Some su /\ ~ falsy su
   | MEvt => dget d (s "type") = Some (JStr (s "event")) /\ dget d (s "event") = Some (JStr t)
   end) ->
  (forall c, ~ declares c kind t) -> unpack_msg (JObj d) = Err ValueError.
Proof.
  intros H Hn.
  assert (Hg : kind = MResp -> t <> s "error") by (intros ->; tauto).
  assert (Hd : dget (reg_of kind) t = None).
  { destruct (dget (reg_of kind) t) as [c|] eqn:E; auto. apply dget_In in E.
    destruct (reg_decl _ _ _ E) as [E'|(E1 & E2 & _)]; [exfalso; eapply Hn; eauto|exfalso; exact (Hg E1 E2)]. }
  destruct kind; cbn [unpack_msg]; unfold getitem.
  - destruct H as [H1 H2]. rewrite H1. cbn [bind].
    change (reg_get registry (JStr (s "request"))) with (@Ok (option mtype) (Some MReq)). cbn [bind]. rewrite H2. cbn [bind reg_get].
    cbn [reg_of] in Hd. now rewrite Hd.
  - destruct H as (H1 & H2 & _ & su & H3 & H4). rewrite H1. cbn [bind].
    change (reg_get registry (JStr (s "response"))) with (@Ok (option mtype) (Some MResp)). cbn [bind]. rewrite H2, H3. cbn [bind]. apply truthy_true in H4. rewrite H4. cbn [reg_get].
    cbn [reg_of] in Hd. now rewrite Hd.
  - destruct H as [H1 H2]. rewrite H1. cbn [bind].
    change (reg_get registry (JStr (s "event"))) with (@Ok (option mtype) (Some MEvt)). cbn [bind]. rewrite H2. cbn [bind reg_get].
    cbn [reg_of] in Hd. now rewrite Hd.
Qed.


(** the members dispatch looks at are plain or enum valued fields of every registered class *)
Definition simpleb (c : cid) (k : pystr) : bool :=
  match dget (dapmap c) k with
  | Some (MF f) => match find_field c f with Some fd => match funp fd with UObj _ => false | _ => true end | None => true end
  | _ => false end.
Definition disp_keys (kind : mtype) : list pystr :=
  match kind with MReq => [s "type"; s "command"] | MResp => [s "type"; s "command"; s "success"] | MEvt => [s "type"; s "event"] end.
Lemma disp_simple kind t c k : In (t, c) (reg_of kind) -> In k (disp_keys kind) -> simpleb c k = true.
Proof.
  intros Hin Hk.
  assert (H : forallb (fun tc => forallb (simpleb (snd tc)) (disp_keys kind)) (reg_of kind) = true) by (destruct kind; vm_compute; reflexivity).
  rewrite forallb_forall in H. specialize (H _ Hin). rewrite forallb_forall in H. exact (H _ Hk).
Qed.
Lemma noise_simple c d d' k v : noise_members c true (dapmap c) d d' -> NoDup (map fst d') -> simpleb c k = true ->
  dget d k = Some v -> dget d' k = Some v.
Proof.
  intros Hn Hnd Hs. unfold simpleb in Hs. destruct (dget (dapmap c) k) as [[f|]|] eqn:E; try discriminate.
  eapply noise_dget; eauto. intros fd Hfd. rewrite Hfd in Hs. destruct (funp fd); eauto. discriminate.
Qed.

Lemma unpack_msg_noise d d' v c : unpack_msg (JObj d) = Ok v -> class_of v = Some c -> custom c = false ->
  noise_members c true (dapmap c) d d' -> NoDup (map fst d') -> unpack_msg (JObj d') = Ok v.
Proof.
  intros H Hc Hcu Hn Hnd. destruct (dispatch _ _ H) as (c' & Hc' & Hsel & Hu). rewrite Hc in Hc'. injection Hc' as <-.
  rewrite <- Hu, (cls_unpack_noise _ _ _ Hcu Hn).
  assert (Hcmd : (exists x, dget d (s "command") = Some x) \/ (exists x, dget d (s "event") = Some x /\ dget d (s "type") = Some (JStr (s "event")))).
  { cbn [unpack_msg] in H. unfold getitem in H. destruct (dget d (s "type")) as [ty|] eqn:Ety; cbn [bind] in H; [|discriminate].
    destruct (dget d (s "command")) as [cm|] eqn:Ecm; [left; eauto|].
    destruct ty as [| | |ty| |]; cbn [reg_get bind] in H; try discriminate.
    destruct (dget registry ty) as [[]|] eqn:Er; cbn [bind] in H; try discriminate.
    right. destruct (dget d (s "event")) as [ev|] eqn:Eev; [|discriminate]. exists ev. split; auto.
    apply dget_In in Er. cbn [registry In] in Er. destruct Er as [E|[E|[E|[]]]]; congruence. }
  apply selected_unpack.
  - destruct Hsel as [(t & Ht & Hc1 & Hd)|[(t & su & Ht & Hs & Htr & Hc1 & Hd)|[(su & Ht & Hs & Htr & ->)|(t & Ht & Hc1 & Hd)]]].
    + left. exists t. pose proof (dget_In _ _ (decl_reg MReq _ _ Hd)) as Hin.
      repeat split; try apply Hd; (eapply noise_simple; eauto; eapply (disp_simple MReq); [exact Hin|cbn; tauto]).
    + right; left. exists t, su.
      assert (Hin : In (t, c) (reg_of MResp)).
      { destruct Hd as [Hd|[-> ->]]; [exact (dget_In _ _ (decl_reg MResp _ _ Hd))|vm_compute; tauto]. }
      repeat split; auto; (eapply noise_simple; eauto; eapply (disp_simple MResp); [exact Hin|cbn; tauto]).
    + right; right; left. exists su.
      repeat split; auto; (eapply noise_simple; eauto; vm_compute; reflexivity).
    + right; right; right. exists t. pose proof (dget_In _ _ (decl_reg MEvt _ _ Hd)) as Hin.
      repeat split; try apply Hd; (eapply noise_simple; eauto; eapply (disp_simple MEvt); [exact Hin|cbn; tauto]).
  - destruct Hsel as [(t & Ht & Hc1 & Hd)|[(t & su & Ht & Hs & Htr & Hc1 & Hd)|[(su & Ht & Hs & Htr & ->)|(t & Ht & Hc1 & Hd)]]].
    + left. exists (JStr t). pose proof (dget_In _ _ (decl_reg MReq _ _ Hd)) as Hin.
      eapply noise_simple; eauto; eapply (disp_simple MReq); [exact Hin|cbn; tauto].
    + left. exists (JStr t).
      assert (Hin : In (t, c) (reg_of MResp)).
      { destruct Hd as [Hd|[-> ->]]; [exact (dget_In _ _ (decl_reg MResp _ _ Hd))|vm_compute; tauto]. }
      eapply noise_simple; eauto; eapply (disp_simple MResp); [exact Hin|cbn; tauto].
    + left. destruct Hcmd as [(x & Hx)|(x & Hx & Hx2)]; [|rewrite Hx2 in Ht; discriminate].
      exists x. eapply noise_simple; eauto; vm_compute; reflexivity.
    + right. exists (JStr t). pose proof (dget_In _ _ (decl_reg MEvt _ _ Hd)) as Hin.
      split; (eapply noise_simple; eauto; eapply (disp_simple MEvt); [exact Hin|cbn; tauto]).
Qed.

(** * Which attribute values an unpacked object has *)
Lemma level_items_assign sub c top m items a q : level_items sub c top m items = Ok (a, q) ->
  forall f x, In (f, x) a -> exists k v fd, In (k, v) items /\ v <> JNull /\ dget m k = Some (MF f) /\ find_field c f = Some fd /\ unpack_field sub (funp fd) v = Ok x.
Proof.
  revert a q. induction items as [|[k v] items IH]; intros a q H f x Hin.
  - cbn in H. injection H as <- <-. destruct Hin.
  - rewrite level_items_cons' in H. cbn zeta in H.
    assert (Hgen : forall a q, level_items sub c top m items = Ok (a, q) -> In (f, x) a ->
      exists k0 v0 fd, In (k0, v0) ((k, v) :: items) /\ v0 <> JNull /\ dget m k0 = Some (MF f) /\ find_field c f = Some fd /\ unpack_field sub (funp fd) v0 = Ok x).
    { intros a0 q0 E Hi. destruct (IH _ _ E _ _ Hi) as (k0 & v0 & fd & H1 & H2). exists k0, v0, fd. split; [right; auto|auto]. }
    destruct (is_null v) eqn:En; [eapply Hgen; eauto|].
    destruct (top && eqb k (s "__types")).
    { destruct (level_items sub c top m items) as [[a0 q0]|] eqn:El; cbn [bind] in H; [|discriminate]. injection H as <- <-. eapply Hgen; eauto. }
    destruct (dget m k) as [[f0|m']|] eqn:Em; [| |eapply Hgen; eauto].
    + destruct (find_field c f0) as [fd|] eqn:Ef; [|discriminate].
      destruct (unpack_field sub (funp fd) v) as [y|] eqn:Eu; cbn [bind] in H; [|discriminate].
      destruct (level_items sub c top m items) as [[a0 q0]|] eqn:El; cbn [bind] in H; [|discriminate]. injection H as <- <-.
      destruct Hin as [E|Hin]; [|eapply Hgen; eauto]. injection E as <- <-.
      exists k, v, fd. split; [left; auto|]. split; [intros ->; discriminate|]. auto.
    + destruct (level_items sub c top m items) as [[a0 q0]|] eqn:El; cbn [bind] in H; [|discriminate]. injection H as <- <-. eapply Hgen; eauto.
Qed.
Lemma level_items_next sub c top m items a q : level_items sub c top m items = Ok (a, q) -> ~ In (s "__types") (map fst items) \/ top = false ->
  forall p, In p q -> exists k m', In (k, snd p) items /\ dget m k = Some (MN m') /\ fst p = Map m'.
Proof.
  revert a q. induction items as [|[k v] items IH]; intros a q H Ht p Hin.
  - cbn in H. injection H as <- <-. destruct Hin.
  - rewrite level_items_cons' in H. cbn zeta in H.
    assert (Ht' : ~ In (s "__types") (map fst items) \/ top = false) by (destruct Ht as [Ht|Ht]; [left; intros Hx; apply Ht; right; exact Hx|right; auto]).
    assert (Hgen : forall a q, level_items sub c top m items = Ok (a, q) -> In p q ->
      exists k0 m', In (k0, snd p) ((k, v) :: items) /\ dget m k0 = Some (MN m') /\ fst p = Map m').
    { intros a0 q0 E Hi. destruct (IH _ _ E Ht' _ Hi) as (k0 & m' & H1 & H2). exists k0, m'. split; [right; auto|auto]. }
    destruct (is_null v) eqn:En; [eapply Hgen; eauto|].
    replace (top && eqb k (s "__types")) with false in H.
    2:{ destruct Ht as [Ht| ->]; [|reflexivity]. destruct top; auto. cbn [andb]. symmetry. apply eqb_neq. intros ->. apply Ht. left; auto. }
    destruct (dget m k) as [[f0|m']|] eqn:Em; [| |eapply Hgen; eauto].
    + destruct (find_field c f0) as [fd|] eqn:Ef; [|discriminate].
      destruct (unpack_field sub (funp fd) v) as [y|] eqn:Eu; cbn [bind] in H; [|discriminate].
      destruct (level_items sub c top m items) as [[a0 q0]|] eqn:El; cbn [bind] in H; [|discriminate]. injection H as <- <-.
      eapply Hgen; eauto.
    + destruct (level_items sub c top m items) as [[a0 q0]|] eqn:El; cbn [bind] in H; [|discriminate]. injection H as <- <-.
      destruct Hin as [<-|Hin]; [|eapply Hgen; eauto]. exists k, m'. split; [left; auto|auto].
Qed.

Lemma mapM_In {A B} (f : A -> res B) l r y : mapM f l = Ok r -> In y r -> exists x, In x l /\ f x = Ok y.
Proof.
  revert r. induction l as [|x l IH]; intros r H Hin.
  - rewrite mapM_nil in H. injection H as <-. destruct Hin.
  - rewrite mapM_cons in H. destruct (f x) eqn:Ex; cbn [bind] in H; [|discriminate].
    destruct (mapM f l) eqn:El; cbn [bind] in H; [|discriminate]. injection H as <-.
    destruct Hin as [->|Hin]; [exists x; split; [left|]; auto|].
    destruct (IH _ eq_refl Hin) as (x0 & H1 & H2). exists x0; split; [right|]; auto.
Qed.

Lemma dget_find {V} (l : list field) (g : field -> V) n fd :
  find (fun f => eqb (fname f) n) l = Some fd -> dget (map (fun f => (fname f, g f)) l) n = Some (g fd).
Proof.
  induction l as [|f l IH]; cbn [find map dget]; [discriminate|]. destruct (eqb (fname f) n); [congruence|auto].
Qed.

Lemma build_attr c a v n fd : build c a = Ok v -> find_field c n = Some fd ->
  match v with PObj _ attrs => dget attrs n | _ => None end =
  match last_assign a n with Some x => Some x | None => match fdef fd with FDef x => Some x | _ => None end end.
Proof.
  unfold build. destruct (mapM _ (fields c)) as [attrs|] eqn:Em; cbn [bind]; [|discriminate].
  intros H; injection H as <-. intros Hf. unfold find_field in Hf. revert attrs Em Hf.
  induction (fields c) as [|f l IH]; intros attrs Em Hf; [discriminate|].
  rewrite mapM_cons in Em. cbn [find] in Hf.
  destruct (last_assign a (fname f)) as [x|] eqn:El; cbn [bind] in Em.
  - destruct (mapM _ l) as [r|] eqn:Er; cbn [bind] in Em; [|discriminate]. injection Em as <-. cbn [dget].
    destruct (eqb_spec (fname f) n) as [E|E].
    + injection Hf as <-. rewrite <- E, El. reflexivity.
    + eapply IH; eauto.
  - destruct (fdef f) eqn:Ed; cbn [bind] in Em; try discriminate.
    destruct (mapM _ l) as [r|] eqn:Er; cbn [bind] in Em; [|discriminate]. injection Em as <-. cbn [dget].
    destruct (eqb_spec (fname f) n) as [E|E].
    + injection Hf as <-. rewrite <- E, El, Ed. reflexivity.
    + eapply IH; eauto.
Qed.

(** * C10: stepIn *)
Lemma stepin_thread d a v t :
  unpack_msg (JObj d) = Ok v -> class_of v = Some C_StepInRequest ->
  NoDup (map fst d) -> ~ In (s "__types") (map fst d) ->
  dget d (s "arguments") = Some (JObj a) -> NoDup (map fst a) ->
  dget a (s "threadId") = Some t ->
  (dget a (s "targetId") = None \/ dget a (s "targetId") = Some JNull) ->
  attr v "thread_id" = Some (lift t).
Proof.
  intros H Hc Hnd Hty Harg Hnda Ht Hta. destruct (dispatch _ _ H) as (c & Hc2 & _ & Hu). rewrite Hc in Hc2. injection Hc2 as <-.
  unfold cls_unpack in Hu. cbn [unpack_obj unpack1] in Hu. unfold default_unpack in Hu.
  set (sub := unpack_obj (jdepth (JObj d))) in *.
  rewrite run_queue_cons, mapM_cons, mapM_nil in Hu. unfold do_pair at 1 in Hu. cbn [snd items_of bind fst] in Hu.
  destruct (level_items sub C_StepInRequest true (dapmap C_StepInRequest) d) as [[a1 q1]|] eqn:El; cbn [bind] in Hu; [|discriminate].
  cbn [flat_map fst snd] in Hu. rewrite !app_nil_r in Hu.
  destruct (run_queue sub 7 C_StepInRequest false q1) as [a2|] eqn:Eq; cbn [bind] in Hu; [|discriminate].
  unfold attr.
  assert (Hff : exists fd, find_field C_StepInRequest (s "thread_id") = Some fd /\ funp fd = UId /\ fdef fd = FReq) by (eexists; split; [reflexivity|split; reflexivity]).
  destruct Hff as (fd & Hfd & Hfu & Hfdef).
  pose proof (build_attr _ _ _ _ _ Hu Hfd) as Hb.
  destruct v as [| | | | | | |c attrs]; try discriminate. cbn iota in Hb. rewrite Hb.
  assert (Hall : forall x, In (s "thread_id", x) (a1 ++ a2) -> x = lift t).
  { intros x Hin. apply in_app_iff in Hin. destruct Hin as [Hin|Hin].
    - destruct (level_items_assign _ _ _ _ _ _ _ El _ _ Hin) as (k & v & fd' & Hi & Hn & Hm & _).
      exfalso. apply dget_In in Hm. cbn [dapmap In] in Hm.
      destruct Hm as [E|[E|[E|[E|[]]]]]; vm_compute in E; discriminate.
    - destruct q1 as [|p0 q0]; [rewrite run_queue_nil in Eq; injection Eq as <-; destruct Hin|].
      rewrite run_queue_cons in Eq.
      destruct (mapM (do_pair sub C_StepInRequest false) (p0 :: q0)) as [rs|] eqn:Em; cbn [bind] in Eq; [|discriminate].
      assert (Hq : forall p, In p (p0 :: q0) -> fst p = Map [(s "threadId", MF (s "thread_id")); (s "singleThread", MF (s "single_thread")); (s "targetId", MF (s "thread_id")); (s "granularity", MF (s "granularity"))] /\ snd p = JObj a).
      { intros p Hp. destruct (level_items_next _ _ _ _ _ _ _ El (or_introl Hty) p Hp) as (k & m' & Hi & Hm & Hf).
        assert (Hk : k = s "arguments" /\ m' = [(s "threadId", MF (s "thread_id")); (s "singleThread", MF (s "single_thread")); (s "targetId", MF (s "thread_id")); (s "granularity", MF (s "granularity"))]).
        { apply dget_In in Hm. cbn [dapmap In] in Hm. destruct Hm as [E|[E|[E|[E|[]]]]]; try discriminate. injection E as <- <-. auto. }
        destruct Hk as [-> ->]. split; auto. apply In_dget in Hi; auto. congruence. }
      assert (Hnil : flat_map snd rs = []).
      { assert (Hx : forall y, In y rs -> snd y = []).
        { intros [ya yq] Hy. destruct (mapM_In _ _ _ _ Em Hy) as (p & Hp & Ep). destruct (Hq _ Hp) as [E1 E2].
          unfold do_pair in Ep. rewrite E2, E1 in Ep. cbn [items_of bind] in Ep. cbn [snd].
          destruct yq as [|z yq]; auto. destruct (level_items_next _ _ _ _ _ _ _ Ep (or_intror eq_refl) z (or_introl eq_refl)) as (k & m' & _ & Hm & _).
          apply dget_In in Hm. cbn [In] in Hm. destruct Hm as [E|[E|[E|[E|[]]]]]; discriminate. }
        clear -Hx. induction rs as [|y rs IH]; auto. cbn [flat_map]. rewrite Hx by (left; auto). apply IH. intros; apply Hx; right; auto. }
      rewrite Hnil, run_queue_nil in Eq. cbn [bind] in Eq. injection Eq as <-. rewrite app_nil_r in Hin.
      apply in_flat_map in Hin. destruct Hin as ([ya yq] & Hy & Hin). cbn [fst] in Hin.
      destruct (mapM_In _ _ _ _ Em Hy) as (p & Hp & Ep). destruct (Hq _ Hp) as [E1 E2].
      unfold do_pair in Ep. rewrite E2, E1 in Ep. cbn [items_of bind] in Ep.
      destruct (level_items_assign _ _ _ _ _ _ _ Ep _ _ Hin) as (k & v & fd' & Hi & Hn & Hm & Hf' & Hux).
      rewrite Hfd in Hf'. injection Hf' as <-. rewrite Hfu in Hux.
      assert (Hux2 : x = lift v).
      { destruct v; cbn [unpack_field apply_unpacker] in Hux; try (injection Hux as <-; reflexivity).
        rewrite (mapM_ok _ lift) in Hux by reflexivity. cbn [bind] in Hux. injection Hux as <-. reflexivity. }
      subst x. f_equal. apply In_dget in Hi; auto.
      apply dget_In in Hm. cbn [In] in Hm. destruct Hm as [E|[E|[E|[E|[]]]]]; try (vm_compute in E; discriminate).
      + injection E as <-. congruence.
      + injection E as <-. exfalso. destruct Hta as [Hta|Hta]; congruence. }
  unfold last_assign. destruct (dget (rev (a1 ++ a2)) (s "thread_id")) as [x|] eqn:Ed.
  - apply dget_In in Ed. apply in_rev in Ed. now rewrite (Hall _ Ed).
  - (* cannot be: the field is required *)
    exfalso. unfold build in Hu. destruct (mapM _ (fields C_StepInRequest)) as [r|] eqn:Em; [|discriminate].
    assert (Hin : In (fld "thread_id" true FReq UId) (fields C_StepInRequest)) by (cbn; tauto).
    clear -Em Ed Hin. revert r Em. induction (fields C_StepInRequest) as [|f l IH]; intros r Em; [destruct Hin|].
    rewrite mapM_cons in Em. destruct Hin as [->|Hin].
    + unfold last_assign in Em. cbn [fname fld] in Em. rewrite Ed in Em. discriminate.
    + destruct (last_assign (a1 ++ a2) (fname f)); [|destruct (fdef f)]; cbn [bind] in Em; try discriminate;
        (destruct (mapM _ l) eqn:El2; cbn [bind] in Em; [|discriminate]; eapply IH; eauto).
Qed.
