(** Which attributes an unpacked message has, in terms of the JSON members. *)
From Verif Require Import PyBase PyDict JsonModel JsonSpec JsonProofs JsonGrammar MsgBase MsgTables MsgModel MsgSpec MsgProofs MsgProofs2 MsgProofs3 MsgProofs4 WireSpec.

(** every object has distinct member names *)
Fixpoint keys_ok (j : json) : Prop :=
  match j with
  | JArr l => fold_right (fun x P => keys_ok x /\ P) True l
  | JObj d => NoDup (map fst d) /\ fold_right (fun kv P => keys_ok (snd kv) /\ P) True d
  | _ => True
  end.
Lemma keys_arr l : keys_ok (JArr l) <-> forall x, In x l -> keys_ok x.
Proof.
  cbn [keys_ok]. induction l as [|y l IH]; cbn [fold_right In]; [tauto|]. rewrite IH. intuition (subst; auto).
Qed.
Lemma keys_obj d : keys_ok (JObj d) <-> NoDup (map fst d) /\ forall k v, In (k, v) d -> keys_ok v.
Proof.
  cbn [keys_ok]. apply and_iff_compat_l. induction d as [|[k0 v0] d IH]; cbn [fold_right In snd]; [tauto|].
  rewrite IH. split.
  - intros [H1 H2] k v [E|E]; [injection E as <- <-; auto|eauto].
  - intros H. split; [apply (H k0); auto|]. intros k v E. apply (H k); auto.
Qed.

Lemma fold_dset_keys (P : json -> Prop) (l : list (pystr * json)) d :
  NoDup (map fst d) /\ (forall k v, In (k, v) d -> P v) -> (forall k v, In (k, v) l -> P v) ->
  let r := fold_left (fun d kv => dset d (fst kv) (snd kv)) l d in NoDup (map fst r) /\ (forall k v, In (k, v) r -> P v).
Proof.
  revert d. induction l as [|[k v] l IH]; intros d Hd Hl; [exact Hd|]. cbn [fold_left fst snd]. cbn zeta. apply IH; [|intros; eapply Hl; right; eauto].
  destruct Hd as [H1 H2]. split; [now apply NoDup_dset|].
  intros k0 v0 Hin. apply In_dget in Hin; [|now apply NoDup_dset]. rewrite dget_dset in Hin.
  destruct (eqb k k0); [injection Hin as <-; eapply Hl; left; reflexivity|eapply H2; eapply dget_In; eauto].
Qed.
Lemma grammar_keys : (forall l v, value l v -> keys_ok v) /\ (forall l vs, elements l vs -> forall v, In v vs -> keys_ok v) /\
  (forall l ms, JsonSpec.members l ms -> forall k v, In (k, v) ms -> keys_ok v).
Proof.
  apply json_mutind; intros; try exact I; try (cbn; tauto).
  - now apply keys_arr.
  - cbn [keys_ok map fst fold_right]. split; [constructor|exact I].
  - unfold object_of. apply keys_obj. apply fold_dset_keys; [split; [constructor|intros ? ? []]|auto].
  - match goal with Hin : In _ (_ :: _) |- _ => destruct Hin as [E|Hin]; [subst; auto|destruct Hin] end.
  - match goal with Hin : In _ (_ :: _) |- _ => destruct Hin as [E|Hin]; [subst; auto|eauto] end.
  - match goal with Hin : In _ (_ :: _) |- _ => destruct Hin as [E|Hin]; [injection E as <- <-; auto|destruct Hin] end.
  - match goal with Hin : In _ (_ :: _) |- _ => destruct Hin as [E|Hin]; [injection E as <- <-; auto|eauto] end.
Qed.
Lemma loads_keys l j : loads l = Ok j -> keys_ok j.
Proof. intros H. apply C05_json_exact in H as (w1 & raw & w2 & _ & Hv & _). eapply (proj1 grammar_keys); eauto. Qed.

Definition top_ok (j : json) : Prop := match j with JObj d => ~ In (s "__types") (map fst d) | _ => True end.
Lemma unres_top j : unreserved j -> top_ok j.
Proof. destruct j; cbn [unreserved top_ok]; tauto. Qed.
Lemma unres_arr l x : unreserved (JArr l) -> In x l -> unreserved x.
Proof. cbn [unreserved]. induction l as [|y l IH]; cbn [fold_right In]; [tauto|]. intros [H1 H2] [<-|H]; auto. Qed.
Lemma unres_obj d k v : unreserved (JObj d) -> In (k, v) d -> unreserved v.
Proof.
  cbn [unreserved]. intros [_ H]. induction d as [|[k0 v0] d IH]; cbn [fold_right In snd] in *; [tauto|].
  destruct H as [H1 H2]. intros [E|E]; [injection E as <- <-; auto|auto].
Qed.
Lemma at_unres j p : unreserved j -> unreserved (at_ j p).
Proof.
  revert j. induction p as [|k p IH]; intros j H; [exact H|]. destruct j as [| | | | |d]; try exact I. cbn [at_].
  destruct (dget d k) as [v|] eqn:E; [|exact I]. apply IH. apply dget_In in E. eapply unres_obj; eauto.
Qed.
Lemma at_keys j p : keys_ok j -> keys_ok (at_ j p).
Proof.
  revert j. induction p as [|k p IH]; intros j H; [exact H|]. destruct j as [| | | | |d]; try exact I. cbn [at_].
  destruct (dget d k) as [v|] eqn:E; [|exact I]. apply IH. apply keys_obj in H as [_ H]. apply dget_In in E. eauto.
Qed.

(** paths of a table *)
Fixpoint entry_paths (e : mentry) : list (list pystr * pystr) :=
  match e with
  | MF f => [([], f)]
  | MN m => flat_map (fun ke => map (fun pf => (fst ke :: fst pf, snd pf)) (entry_paths (snd ke))) m
  end.
Fixpoint ndb (l : list pystr) : bool := match l with [] => true | x :: r => negb (mem x r) && ndb r end.
Lemma mem_In (x : pystr) l : mem x l = true <-> In x l.
Proof.
  unfold mem. rewrite existsb_exists. split.
  - intros (y & H & E). destruct (eqb_spec x y); subst; auto; discriminate.
  - intros H. exists x. split; auto. apply eqb_refl.
Qed.
Lemma ndb_NoDup l : ndb l = true -> NoDup l.
Proof.
  induction l as [|x l IH]; cbn [ndb]; [constructor|]. intros H. apply andb_true_iff in H as [H1 H2]. constructor; auto.
  intros Hin. apply mem_In in Hin. rewrite Hin in H1. discriminate.
Qed.
Fixpoint mwf (e : mentry) : bool :=
  match e with MF _ => true | MN m => ndb (map fst m) && forallb (fun ke => mwf (snd ke)) m end.
Lemma tables_wf c : mwf (MN (dapmap c)) = true.
Proof. destruct c; vm_compute; reflexivity. Qed.
Lemma paths_MN m k p f : NoDup (map fst m) -> (In (k :: p, f) (entry_paths (MN m)) <-> exists e, dget m k = Some e /\ In (p, f) (entry_paths e)).
Proof.
  intros Hnd. cbn [entry_paths]. rewrite in_flat_map. split.
  - intros ([k' e] & Hin & Hm). cbn [fst snd] in Hm. apply in_map_iff in Hm as ([p' f'] & E & Hp). cbn [fst snd] in E. injection E as <- <- <-.
    exists e. split; auto. apply In_dget; auto.
  - intros (e & He & Hp). exists (k, e). split; [now apply dget_In|]. cbn [fst snd]. apply in_map_iff. exists (p, f). auto.
Qed.
Lemma paths_nil m f : ~ In ([], f) (entry_paths (MN m)).
Proof.
  cbn [entry_paths]. rewrite in_flat_map. intros ([k e] & _ & H). apply in_map_iff in H as (? & E & _). discriminate.
Qed.

(** one level *)
Lemma level_items_assign_all sub c top m items a q : level_items sub c top m items = Ok (a, q) ->
  ~ In (s "__types") (map fst items) \/ top = false ->
  forall k v f, In (k, v) items -> v <> JNull -> dget m k = Some (MF f) ->
  exists fd x, find_field c f = Some fd /\ unpack_field sub (funp fd) v = Ok x /\ In (f, x) a.
Proof.
  revert a q. induction items as [|[k v] items IH]; intros a q H Ht k0 v0 f Hin Hn Hm; [destruct Hin|].
  rewrite level_items_cons' in H. cbn zeta in H.
  assert (Ht' : ~ In (s "__types") (map fst items) \/ top = false) by (destruct Ht as [Ht|Ht]; [left; intros Hx; apply Ht; right; exact Hx|right; auto]).
  replace (top && eqb k (s "__types")) with false in H.
  2:{ destruct Ht as [Ht| ->]; [|reflexivity]. destruct top; auto. cbn [andb]. symmetry. apply eqb_neq. intros ->. apply Ht. left; auto. }
  destruct Hin as [E|Hin].
  - injection E as -> ->. replace (is_null v0) with false in H by (destruct v0; auto; congruence). rewrite Hm in H.
    destruct (find_field c f) as [fd|] eqn:Ef; [|discriminate].
    destruct (unpack_field sub (funp fd) v0) as [y|] eqn:Eu; cbn [bind] in H; [|discriminate].
    destruct (level_items sub c top m items) as [[a0 q0]|] eqn:El; cbn [bind] in H; [|discriminate]. injection H as <- <-.
    exists fd, y. split; [auto|split; [auto|left; auto]].
  - destruct (is_null v) eqn:En; [eapply IH; eauto|].
    destruct (dget m k) as [[f0|m']|] eqn:Em; [| |eapply IH; eauto].
    + destruct (find_field c f0) as [fd0|] eqn:Ef; [|discriminate].
      destruct (unpack_field sub (funp fd0) v) as [y|] eqn:Eu; cbn [bind] in H; [|discriminate].
      destruct (level_items sub c top m items) as [[a0 q0]|] eqn:El; cbn [bind] in H; [|discriminate]. injection H as <- <-.
      destruct (IH _ _ eq_refl Ht' _ _ _ Hin Hn Hm) as (fd & x & H1 & H2 & H3). exists fd, x. split; [auto|split; [auto|right; auto]].
    + destruct (level_items sub c top m items) as [[a0 q0]|] eqn:El; cbn [bind] in H; [|discriminate]. injection H as <- <-.
      eapply IH; eauto.
Qed.
Lemma level_items_next_all sub c top m items a q : level_items sub c top m items = Ok (a, q) ->
  ~ In (s "__types") (map fst items) \/ top = false ->
  forall k v m', In (k, v) items -> v <> JNull -> dget m k = Some (MN m') -> In (Map m', v) q.
Proof.
  revert a q. induction items as [|[k v] items IH]; intros a q H Ht k0 v0 m0 Hin Hn Hm; [destruct Hin|].
  rewrite level_items_cons' in H. cbn zeta in H.
  assert (Ht' : ~ In (s "__types") (map fst items) \/ top = false) by (destruct Ht as [Ht|Ht]; [left; intros Hx; apply Ht; right; exact Hx|right; auto]).
  replace (top && eqb k (s "__types")) with false in H.
  2:{ destruct Ht as [Ht| ->]; [|reflexivity]. destruct top; auto. cbn [andb]. symmetry. apply eqb_neq. intros ->. apply Ht. left; auto. }
  destruct Hin as [E|Hin].
  - injection E as -> ->. replace (is_null v0) with false in H by (destruct v0; auto; congruence). rewrite Hm in H.
    destruct (level_items sub c top m items) as [[a0 q0]|] eqn:El; cbn [bind] in H; [|discriminate]. injection H as <- <-. left; auto.
  - destruct (is_null v) eqn:En; [eapply IH; eauto|].
    destruct (dget m k) as [[f0|m']|] eqn:Em; [| |eapply IH; eauto].
    + destruct (find_field c f0) as [fd0|] eqn:Ef; [|discriminate].
      destruct (unpack_field sub (funp fd0) v) as [y|] eqn:Eu; cbn [bind] in H; [|discriminate].
      destruct (level_items sub c top m items) as [[a0 q0]|] eqn:El; cbn [bind] in H; [|discriminate]. injection H as <- <-. eapply IH; eauto.
    + destruct (level_items sub c top m items) as [[a0 q0]|] eqn:El; cbn [bind] in H; [|discriminate]. injection H as <- <-. right. eapply IH; eauto.
Qed.
Lemma level_items_next_nn sub c top m items a q : level_items sub c top m items = Ok (a, q) -> forall p, In p q -> snd p <> JNull.
Proof.
  revert a q. induction items as [|[k v] items IH]; intros a q H p Hin.
  - cbn in H. injection H as <- <-. destruct Hin.
  - rewrite level_items_cons' in H. cbn zeta in H.
    destruct (is_null v) eqn:En; [eapply IH; eauto|]. assert (Hv : v <> JNull) by (intros ->; discriminate).
    destruct (top && eqb k (s "__types")).
    { destruct (level_items sub c top m items) as [[a0 q0]|] eqn:El; cbn [bind] in H; [|discriminate]. injection H as <- <-. destruct Hin as [<-|Hin]; [auto|eapply IH; eauto]. }
    destruct (dget m k) as [[f0|m']|] eqn:Em; [| |eapply IH; eauto].
    + destruct (find_field c f0) as [fd|] eqn:Ef; [|discriminate].
      destruct (unpack_field sub (funp fd) v) as [y|] eqn:Eu; cbn [bind] in H; [|discriminate].
      destruct (level_items sub c top m items) as [[a0 q0]|] eqn:El; cbn [bind] in H; [|discriminate]. injection H as <- <-. eapply IH; eauto.
    + destruct (level_items sub c top m items) as [[a0 q0]|] eqn:El; cbn [bind] in H; [|discriminate]. injection H as <- <-. destruct Hin as [<-|Hin]; [auto|eapply IH; eauto].
Qed.

Lemma mapM_In_ok {A B} (f : A -> res B) l r x : mapM f l = Ok r -> In x l -> exists y, f x = Ok y /\ In y r.
Proof.
  revert r. induction l as [|z l IH]; intros r H Hin; [destruct Hin|].
  rewrite mapM_cons in H. destruct (f z) as [b|] eqn:Ex; cbn [bind] in H; [|discriminate].
  destruct (mapM f l) eqn:El; cbn [bind] in H; [|discriminate]. injection H as <-.
  destruct Hin as [->|Hin]; [exists b; split; [|left]; auto|]. destruct (IH _ eq_refl Hin) as (y & H1 & H2). exists y. split; [|right]; auto.
Qed.

Definition queue_ok (top : bool) (q : list (mapping * json)) : Prop :=
  forall p, In p q -> exists m, fst p = Map m /\ mwf (MN m) = true /\ keys_ok (snd p) /\ (top = true -> top_ok (snd p)).
Lemma do_pair_ok sub c top m j r : do_pair sub c top (Map m, j) = Ok r -> exists d, j = JObj d /\ level_items sub c top m d = Ok r.
Proof. unfold do_pair. cbn [snd fst]. destruct j; try discriminate. cbn [items_of bind]. eauto. Qed.

(** all the assignments an unpack makes: one for each path of the table with a value in the message *)
Lemma run_queue_sem sub c n : forall top q a, run_queue sub n c top q = Ok a -> queue_ok top q ->
  (forall f x, In (f, x) a -> exists m j p fd, In (Map m, j) q /\ In (p, f) (entry_paths (MN m)) /\ at_ j p <> JNull /\
    find_field c f = Some fd /\ unpack_field sub (funp fd) (at_ j p) = Ok x) /\
  (forall m j p f, In (Map m, j) q -> In (p, f) (entry_paths (MN m)) -> at_ j p <> JNull ->
    exists fd x, find_field c f = Some fd /\ unpack_field sub (funp fd) (at_ j p) = Ok x /\ In (f, x) a).
Proof.
  induction n as [|n IH]; intros top q a H Hq.
  { destruct q; [|discriminate]. cbn in H. injection H as <-. split; [intros ? ? []|intros ? ? ? ? []]. }
  destruct q as [|p0 q0]; [rewrite run_queue_nil in H; injection H as <-; split; [intros ? ? []|intros ? ? ? ? []]|].
  rewrite run_queue_cons in H. set (q := p0 :: q0) in *.
  destruct (mapM (do_pair sub c top) q) as [rs|] eqn:Em; cbn [bind] in H; [|discriminate].
  destruct (run_queue sub n c false (flat_map snd rs)) as [a2|] eqn:E2; cbn [bind] in H; [|discriminate]. injection H as <-.
  (* what each pair yields *)
  assert (Hpair : forall m j, In (Map m, j) q -> exists d r, j = JObj d /\ level_items sub c top m d = Ok r /\ In r rs /\
     NoDup (map fst m) /\ forallb (fun ke => mwf (snd ke)) m = true /\ NoDup (map fst d) /\ (forall k v, In (k, v) d -> keys_ok v) /\
     (~ In (s "__types") (map fst d) \/ top = false)).
  { intros m j Hin. destruct (mapM_In_ok _ _ _ _ Em Hin) as (r & Hr & Hin2). destruct (do_pair_ok _ _ _ _ _ _ Hr) as (d & -> & Hl).
    destruct (Hq _ Hin) as (m' & E & Hw & Hk & Ht). cbn [fst snd] in *. injection E as <-.
    cbn [mwf] in Hw. apply andb_true_iff in Hw as [Hw1 Hw2]. apply keys_obj in Hk as [Hk1 Hk2].
    exists d, r. repeat split; auto using ndb_NoDup. destruct top; [left; apply Ht; auto|right; auto]. }
  assert (Hrs : forall r, In r rs -> exists m d, In (Map m, JObj d) q /\ level_items sub c top m d = Ok r).
  { intros r Hr. destruct (mapM_In _ _ _ _ Em Hr) as ([mp j] & Hin & Hd). destruct (Hq _ Hin) as (m & E & _). cbn [fst] in E. subst mp.
    destruct (do_pair_ok _ _ _ _ _ _ Hd) as (d & -> & Hl). eauto. }
  assert (Hq2 : queue_ok false (flat_map snd rs)).
  { intros p Hp. apply in_flat_map in Hp as ([ra rq] & Hr & Hp). cbn [snd] in Hp. destruct (Hrs _ Hr) as (m & d & Hin & Hl).
    destruct (Hpair _ _ Hin) as (d' & r' & E & _ & _ & Hm1 & Hm2 & Hd1 & Hd2 & Ht). injection E as <-.
    destruct (level_items_next _ _ _ _ _ _ _ Hl Ht _ Hp) as (k & m' & Hi & Hm & Hf).
    exists m'. split; [auto|]. split; [|split; [eapply Hd2; eauto|discriminate]].
    rewrite forallb_forall in Hm2. apply (Hm2 (k, MN m')). now apply dget_In. }
  destruct (IH false _ _ E2 Hq2) as [IHs IHc]. clear IH. split.
  - intros f x Hin. apply in_app_iff in Hin as [Hin|Hin].
    + apply in_flat_map in Hin as ([ra rq] & Hr & Hin). cbn [fst] in Hin. destruct (Hrs _ Hr) as (m & d & Hi & Hl).
      destruct (Hpair _ _ Hi) as (d' & r' & E & _ & _ & Hm1 & Hm2 & Hd1 & Hd2 & Ht). injection E as <-.
      destruct (level_items_assign _ _ _ _ _ _ _ Hl _ _ Hin) as (k & v & fd & Hkv & Hn & Hm & Hf & Hu).
      assert (Hat : at_ (JObj d) [k] = v) by (cbn [at_]; now rewrite (In_dget _ _ _ Hd1 Hkv)).
      exists m, (JObj d), [k], fd. rewrite Hat. repeat split; auto. apply paths_MN; auto. exists (MF f). split; auto. left; auto.
    + destruct (IHs _ _ Hin) as (m' & j & p & fd & Hin' & Hp & Hat & Hf & Hu). clear Hin. rename Hin' into Hin. apply in_flat_map in Hin as ([ra rq] & Hr & Hin). cbn [snd] in Hin.
      destruct (Hrs _ Hr) as (m & d & Hi & Hl).
      destruct (Hpair _ _ Hi) as (d' & r' & E & _ & _ & Hm1 & Hm2 & Hd1 & Hd2 & Ht). injection E as <-.
      destruct (level_items_next _ _ _ _ _ _ _ Hl Ht _ Hin) as (k & m0 & Hkv & Hm & E). cbn [fst snd] in *. injection E as <-.
      assert (Hat2 : at_ (JObj d) (k :: p) = at_ j p) by (cbn [at_]; now rewrite (In_dget _ _ _ Hd1 Hkv)).
      exists m, (JObj d), (k :: p), fd. rewrite Hat2. repeat split; auto. apply paths_MN; auto. exists (MN m'). auto.
  - intros m j p f Hin Hp Hat.
    destruct (Hpair _ _ Hin) as (d & [ra rq] & -> & Hl & Hr & Hm1 & Hm2 & Hd1 & Hd2 & Ht).
    destruct p as [|k p]; [exfalso; eapply paths_nil; eauto|]. apply paths_MN in Hp as (e & He & Hp); auto.
    cbn [at_] in *. destruct (dget d k) as [v|] eqn:Ed; [|congruence].
    assert (Hv : v <> JNull) by (intros ->; destruct p; cbn in Hat; congruence).
    pose proof (dget_In _ _ Ed) as Hkv. destruct e as [f'|m'].
    + cbn [entry_paths] in Hp. destruct Hp as [E|[]]. injection E as <- <-. cbn [at_] in *.
      destruct (level_items_assign_all _ _ _ _ _ _ _ Hl Ht _ _ _ Hkv Hv He) as (fd' & x' & H1 & H2 & H3).
      exists fd', x'. repeat split; auto. apply in_app_iff. left. apply in_flat_map. exists (ra, rq). auto.
    + destruct (IHc m' v p f) as (fd & x & H1 & H2 & H3); auto.
      { apply in_flat_map. exists (ra, rq). split; auto. cbn [snd]. eapply level_items_next_all; eauto. }
      exists fd, x. repeat split; auto. apply in_app_iff. auto.
Qed.

Lemma build_required c a v n fd : build c a = Ok v -> find_field c n = Some fd -> last_assign a n = None -> exists x, fdef fd = FDef x.
Proof.
  unfold build. destruct (mapM _ (fields c)) as [attrs|] eqn:Em; cbn [bind]; [|discriminate]. intros _ Hf Hl.
  unfold find_field in Hf. pose proof (find_some _ _ Hf) as [Hin Heq]. destruct (eqb_spec (fname fd) n) as [<-|]; [|discriminate].
  destruct (mapM_In_ok _ _ _ _ Em Hin) as (y & Hy & _). rewrite Hl in Hy. destruct (fdef fd); try discriminate. eauto.
Qed.

(** the paths a field is read from *)
Definition from (c : cid) (f : pystr) : list (list pystr) :=
  map fst (filter (fun pf => eqb (snd pf) f) (entry_paths (MN (dapmap c)))).
Lemma from_In c f p : In p (from c f) <-> In (p, f) (entry_paths (MN (dapmap c))).
Proof.
  unfold from. rewrite in_map_iff. split.
  - intros ([p' f'] & E & H). cbn [fst] in E. subst p'. apply filter_In in H as [H E]. cbn [snd] in E. destruct (eqb_spec f' f); [subst; auto|discriminate].
  - intros H. exists (p, f). split; auto. apply filter_In. split; auto. apply eqb_refl.
Qed.

Lemma unpack_attr sub c j v f fd p :
  default_unpack sub c j = Ok v -> keys_ok j -> top_ok j ->
  find_field c f = Some fd -> In p (from c f) -> (forall p', In p' (from c f) -> p' <> p -> at_ j p' = JNull) ->
  exists attrs, v = PObj c attrs /\
  ((at_ j p = JNull /\ exists x, fdef fd = FDef x /\ dget attrs f = Some x) \/
   (at_ j p <> JNull /\ exists x, unpack_field sub (funp fd) (at_ j p) = Ok x /\ dget attrs f = Some x)).
Proof.
  unfold default_unpack. intros H Hk Ht Hfd Hp Hu.
  destruct (run_queue sub 8 c true [(Map (dapmap c), j)]) as [a|] eqn:Eq; cbn [bind] in H; [|discriminate].
  assert (Hqo : queue_ok true [(Map (dapmap c), j)]).
  { intros p0 [<-|[]]. exists (dapmap c). cbn [fst snd]. repeat split; auto. apply tables_wf. }
  destruct (run_queue_sem sub c 8 true _ a Eq Hqo) as [Hs Hc].
  assert (Hobj : exists attrs, v = PObj c attrs).
  { unfold build in H. destruct (mapM _ (fields c)); cbn [bind] in H; [|discriminate]. injection H as <-. eauto. }
  destruct Hobj as (attrs & ->). exists attrs. split; [auto|].
  pose proof (build_attr _ _ _ _ _ H Hfd) as Hb. cbn iota in Hb.
  destruct (dget (rev a) f) as [x|] eqn:Ed.
  - right. unfold last_assign in Hb. rewrite Ed in Hb. apply dget_In, in_rev in Ed.
    destruct (Hs _ _ Ed) as (m & j' & p' & fd' & Hin & Hp' & Hat & Hf' & Hx). destruct Hin as [E|[]]. injection E as <- <-.
    rewrite Hfd in Hf'. injection Hf' as <-. apply from_In in Hp'.
    destruct (eqb_spec p' p) as [->|Hne]; [eauto|]. exfalso. apply Hat, Hu; auto.
  - left. destruct (build_required _ _ _ _ _ H Hfd Ed) as (x & Hx). unfold last_assign in Hb. rewrite Ed, Hx in Hb. split; [|eauto].
    destruct (is_null (at_ j p)) eqn:Ez; [destruct (at_ j p); auto; discriminate|]. exfalso.
    destruct (Hc (dapmap c) j p f) as (fd' & y & _ & _ & Hin); [left; auto|now apply from_In|intros E; rewrite E in Ez; discriminate|].
    apply dget_None in Ed. apply Ed. unfold dkeys. apply in_map_iff. exists (f, y). split; auto. now apply in_rev in Hin.
Qed.

Lemma unpack_id sub j : unpack_field sub UId j = Ok (lift j).
Proof. destruct j; cbn [unpack_field apply_unpacker lift]; try reflexivity. now rewrite (mapM_ok _ lift) by reflexivity. Qed.

(** a plain attribute of an accepted object is the member at its path, or the default *)
Lemma attr_plain n c j v f p fd :
  unpack_obj (S n) c j = Ok v -> custom c = false -> keys_ok j -> top_ok j ->
  find_field c (s f) = Some fd -> funp fd = UId -> In p (from c (s f)) -> (forall p', In p' (from c (s f)) -> p' <> p -> at_ j p' = JNull) ->
  (at_ j p <> JNull -> attr v f = Some (lift (at_ j p))) /\ (at_ j p = JNull -> exists x, fdef fd = FDef x /\ attr v f = Some x).
Proof.
  intros H Hc Hk Ht Hf Hu Hp Hp'. cbn [unpack_obj] in H.
  replace (unpack1 (unpack_obj n) c j) with (default_unpack (unpack_obj n) c j) in H by (destruct c; try discriminate Hc; reflexivity).
  destruct (unpack_attr _ _ _ _ _ _ _ H Hk Ht Hf Hp Hp') as (attrs & -> & Hx). rewrite Hu in Hx. unfold attr. split; intros Ha.
  - destruct Hx as [[E _]|[_ (x & E & Hx)]]; [congruence|]. rewrite unpack_id in E. injection E as <-. exact Hx.
  - destruct Hx as [[_ E]|[E _]]; [exact E|congruence].
Qed.
Lemma attr_struct n c j v f p fd :
  unpack_obj (S n) c j = Ok v -> custom c = false -> keys_ok j -> top_ok j ->
  find_field c (s f) = Some fd -> In p (from c (s f)) -> (forall p', In p' (from c (s f)) -> p' <> p -> at_ j p' = JNull) ->
  (at_ j p <> JNull -> exists x, unpack_field (unpack_obj n) (funp fd) (at_ j p) = Ok x /\ attr v f = Some x) /\
  (at_ j p = JNull -> exists x, fdef fd = FDef x /\ attr v f = Some x).
Proof.
  intros H Hc Hk Ht Hf Hp Hp'. cbn [unpack_obj] in H.
  replace (unpack1 (unpack_obj n) c j) with (default_unpack (unpack_obj n) c j) in H by (destruct c; try discriminate Hc; reflexivity).
  destruct (unpack_attr _ _ _ _ _ _ _ H Hk Ht Hf Hp Hp') as (attrs & -> & Hx). unfold attr. split; intros Ha.
  - destruct Hx as [[E _]|[_ E]]; [congruence|exact E].
  - destruct Hx as [[_ E]|[E _]]; [exact E|congruence].
Qed.
Lemma unpack_class n c j v : unpack_obj (S n) c j = Ok v -> custom c = false -> exists attrs, v = PObj c attrs.
Proof.
  cbn [unpack_obj]. intros H Hc. replace (unpack1 (unpack_obj n) c j) with (default_unpack (unpack_obj n) c j) in H by (destruct c; try discriminate Hc; reflexivity).
  unfold default_unpack in H. destruct (run_queue _ _ _ _ _); cbn [bind] in H; [|discriminate].
  unfold build in H. destruct (mapM _ (fields c)); cbn [bind] in H; [|discriminate]. injection H as <-. eauto.
Qed.
