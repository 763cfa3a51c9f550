(** When is an object accepted: completeness of unpack. *)
From Verif Require Import PyBase PyDict JsonModel JsonSpec JsonProofs JsonGrammar MsgBase MsgTables MsgModel MsgSpec MsgProofs MsgProofs2 MsgProofs3 MsgProofs4 DbgTypes WireSpec WireModel WireProofs WireProps.

Section Accept.
Variable sub : cid -> json -> res pval.
Variable c : cid.

(** the members present are all of the form the table expects *)
Inductive fits : mentry -> json -> Prop :=
| F_field f fd j x : find_field c f = Some fd -> unpack_field sub (funp fd) j = Ok x -> fits (MF f) j
| F_nest m d : (forall k v e, In (k, v) d -> v <> JNull -> dget m k = Some e -> fits e v) -> fits (MN m) (JObj d).

Lemma level_items_ok top m d : (forall k v e, In (k, v) d -> v <> JNull -> dget m k = Some e -> fits e v) ->
  ~ In (s "__types") (map fst d) \/ top = false -> exists r, level_items sub c top m d = Ok r.
Proof.
  induction d as [|[k v] d IH]; intros H Ht; [eexists; reflexivity|].
  assert (Ht' : ~ In (s "__types") (map fst d) \/ top = false) by (destruct Ht as [Ht|Ht]; [left; intros Hx; apply Ht; right; exact Hx|right; auto]).
  destruct IH as ([a q] & IH); [intros; eapply H; eauto; right; auto|auto|].
  rewrite level_items_cons'. cbn zeta. rewrite IH.
  replace (top && eqb k (s "__types")) with false.
  2:{ destruct Ht as [Ht| ->]; [|reflexivity]. destruct top; auto. cbn [andb]. symmetry. apply eqb_neq. intros ->. apply Ht. left; auto. }
  destruct (is_null v) eqn:En; [eauto|]. assert (Hn : v <> JNull) by (intros ->; discriminate).
  destruct (dget m k) as [e|] eqn:Em; [|eauto]. pose proof (H k v e (or_introl eq_refl) Hn Em) as Hf.
  inversion Hf as [f fd j x H1 H2|m' d' H1]; subst; cbn [bind]; [rewrite H1, H2; cbn [bind]; eauto|eauto].
Qed.

Fixpoint mdepth (e : mentry) : nat :=
  match e with MF _ => 0 | MN m => S (fold_right (fun ke n => Nat.max (mdepth (snd ke)) n) 0 m) end.
Lemma mdepth_in m k e : In (k, e) m -> mdepth e < mdepth (MN m).
Proof.
  cbn [mdepth]. induction m as [|[k0 e0] m IH]; [intros []|]. cbn [fold_right snd].
  intros [E|Hin]; [injection E as <- <-; lia|]. specialize (IH Hin). lia.
Qed.
Lemma run_queue_ok n : forall top q, queue_ok top q -> (forall m j, In (Map m, j) q -> fits (MN m) j /\ mdepth (MN m) <= n) ->
  exists a, run_queue sub n c top q = Ok a.
Proof.
  induction n as [|n IH]; intros top q Hq H.
  - destruct q as [|p q]; [eexists; reflexivity|]. destruct (Hq p (or_introl eq_refl)) as (m & E & _). destruct p as [mp j]. cbn [fst] in E. subst mp.
    destruct (H m j (or_introl eq_refl)) as [_ Hd]. cbn [mdepth] in Hd. lia.
  - destruct q as [|p0 q0]; [eexists; apply run_queue_nil|]. rewrite run_queue_cons. set (q := p0 :: q0) in *.
    assert (Hp : forall p, In p q -> exists r, do_pair sub c top p = Ok r).
    { intros [mp j] Hin. destruct (Hq _ Hin) as (m & E & Hw & Hk & Ht). cbn [fst snd] in *. subst mp. destruct (H _ _ Hin) as [Hf _].
      inversion Hf as [|m' d Hf']; subst. unfold do_pair. cbn [fst snd items_of bind]. apply level_items_ok; auto.
      destruct top; [left; apply Ht; auto|right; auto]. }
    assert (Hm : exists rs, mapM (do_pair sub c top) q = Ok rs).
    { clear -Hp. induction q as [|p q IH]; [eexists; reflexivity|]. rewrite mapM_cons. destruct (Hp p (or_introl eq_refl)) as (r & ->). cbn [bind].
      destruct IH as (rs & ->); [intros; apply Hp; right; auto|]. eexists; reflexivity. }
    destruct Hm as (rs & Em). rewrite Em. cbn [bind].
    assert (Hnext : forall p, In p (flat_map snd rs) -> exists m' m d k, In (Map m, JObj d) q /\ In (k, snd p) d /\ dget m k = Some (MN m') /\ fst p = Map m' /\ snd p <> JNull).
    { intros p Hp'. apply in_flat_map in Hp' as ([ra rq] & Hr & Hp'). cbn [snd] in Hp'.
      destruct (mapM_In _ _ _ _ Em Hr) as ([mp j] & Hin & Hd). destruct (Hq _ Hin) as (m & E & _ & _ & Ht). cbn [fst snd] in E, Ht. subst mp.
      destruct (do_pair_ok _ _ _ _ _ _ Hd) as (d & -> & Hl).
      assert (Ht' : ~ In (s "__types") (map fst d) \/ top = false) by (destruct top; [left; apply Ht; auto|right; auto]).
      destruct (level_items_next _ _ _ _ _ _ _ Hl Ht' _ Hp') as (k & m' & Hi & Hm & Hf).
      exists m', m, d, k. repeat split; auto. eapply level_items_next_nn; eauto. }
    destruct (IH false (flat_map snd rs)) as (a & Ha).
    + intros p Hp'. destruct (Hnext _ Hp') as (m' & m & d & k & Hin & Hi & Hm & Hf & Hn).
      destruct (Hq _ Hin) as (m0 & E & Hw & Hk & Ht). cbn [fst snd] in *. injection E as <-.
      exists m'. split; [auto|]. cbn [mwf] in Hw. apply andb_true_iff in Hw as [_ Hw]. rewrite forallb_forall in Hw.
      split; [apply (Hw (k, MN m')); now apply dget_In|]. split; [|discriminate]. apply keys_obj in Hk as [_ Hk]. eauto.
    + intros m' j' Hp'. destruct (Hnext _ Hp') as (m0 & m & d & k & Hin & Hi & Hm & Hf & Hn). cbn [fst snd] in *. injection Hf as <-.
      destruct (H _ _ Hin) as [Hfit Hd]. inversion Hfit as [|m1 d1 Hfit']; subst. split; [eapply Hfit'; eauto|].
      apply dget_In in Hm. pose proof (mdepth_in _ _ _ Hm). lia.
    + rewrite Ha. cbn [bind]. eauto.
Qed.
End Accept.

Lemma dget_has {V} (l : list (pystr * V)) k v : In (k, v) l -> exists w, dget l k = Some w.
Proof.
  induction l as [|[k0 v0] l IH]; [intros []|]. cbn [dget]. intros [E|H].
  - injection E as -> ->. rewrite eqb_refl. eauto.
  - destruct (eqb k0 k); eauto.
Qed.
Lemma build_ok c a : (forall fd, In fd (fields c) -> (exists x, fdef fd = FDef x) \/ (exists x, In (fname fd, x) a)) -> exists v, build c a = Ok v.
Proof.
  unfold build. intros H. assert (Hm : exists r, mapM (fun fd => match last_assign a (fname fd) with
      | Some v => Ok (fname fd, v)
      | None => match fdef fd with FDef v => Ok (fname fd, v) | FReq => Err TypeError | FUnset => Err AttributeError end end) (fields c) = Ok r).
  { induction (fields c) as [|fd l IH]; [eexists; reflexivity|]. rewrite mapM_cons. destruct IH as (r & Hr); [intros; apply H; right; auto|].
    destruct (last_assign a (fname fd)) as [v|] eqn:E; cbn [bind]; [rewrite Hr; cbn [bind]; eauto|].
    destruct (H fd (or_introl eq_refl)) as [(x & ->)|(x & Hx)]; cbn [bind]; [rewrite Hr; cbn [bind]; eauto|].
    exfalso. apply in_rev in Hx. apply dget_has in Hx as (w & Hw). unfold last_assign in E. congruence. }
  destruct Hm as (r & ->). cbn [bind]. eauto.
Qed.

(** tables with at most one level of nesting, whose fields are declared *)
Definition flat2 (c : cid) : bool :=
  forallb (fun ke => match snd ke with
    | MF f => match find_field c f with Some _ => true | None => false end
    | MN m => forallb (fun ke' => match snd ke' with MF f => match find_field c f with Some _ => true | None => false end | MN _ => false end) m
    end) (dapmap c).
Lemma accept n c j : custom c = false -> flat2 c = true -> is_object j -> keys_ok j -> top_ok j ->
  (forall p f fd, In (p, f) (entry_paths (MN (dapmap c))) -> find_field c f = Some fd -> funp fd <> UId -> at_ j p <> JNull ->
     exists x, unpack_field (unpack_obj n) (funp fd) (at_ j p) = Ok x) ->
  (forall k m, In (k, MN m) (dapmap c) -> at_ j [k] = JNull \/ is_object (at_ j [k])) ->
  (forall fd, In fd (fields c) -> (exists x, fdef fd = FDef x) \/ (exists p, In p (from c (fname fd)) /\ at_ j p <> JNull)) ->
  exists v, unpack_obj (S n) c j = Ok v.
Proof.
  intros Hc H2 (d & ->) HK HT Hs Hn Hr. cbn [unpack_obj].
  replace (unpack1 (unpack_obj n) c (JObj d)) with (default_unpack (unpack_obj n) c (JObj d)) by (destruct c; try discriminate Hc; reflexivity).
  unfold default_unpack. set (sub := unpack_obj n) in *.
  pose proof (tables_wf c) as Hw. cbn [mwf] in Hw. apply andb_true_iff in Hw as [Hw1 Hw2]. apply ndb_NoDup in Hw1.
  rewrite forallb_forall in Hw2. unfold flat2 in H2. rewrite forallb_forall in H2.
  pose proof HK as HK'. apply keys_obj in HK' as [HK1 HK2].
  assert (Hleaf : forall p f v, In (p, f) (entry_paths (MN (dapmap c))) -> at_ (JObj d) p = v -> v <> JNull ->
     (exists fd, find_field c f = Some fd) -> fits sub c (MF f) v).
  { intros p f v Hp Hv Hnn (fd & Hf). destruct (funp fd) as [|e|c'] eqn:Eu.
    - eapply F_field; [exact Hf|]. rewrite Eu. apply unpack_id.
    - destruct (Hs p f fd Hp Hf) as (x & Hx); [congruence|congruence|]. eapply F_field; [exact Hf|]. rewrite <- Hv. exact Hx.
    - destruct (Hs p f fd Hp Hf) as (x & Hx); [congruence|congruence|]. eapply F_field; [exact Hf|]. rewrite <- Hv. exact Hx. }
  assert (Hfit : fits sub c (MN (dapmap c)) (JObj d)).
  { constructor. intros k v e Hin Hv He. pose proof (dget_In _ _ He) as Hin2. pose proof (In_dget _ _ _ HK1 Hin) as Hdk.
    specialize (H2 _ Hin2). cbn [snd] in H2. destruct e as [f|m].
    - eapply (Hleaf [k]); [apply paths_MN; auto; exists (MF f); split; [auto|left; auto]|cbn [at_]; now rewrite Hdk|auto|].
      destruct (find_field c f); [eauto|discriminate].
    - destruct (Hn _ _ Hin2) as [E|(dv & E)]; cbn [at_] in E; rewrite Hdk in E; [congruence|]. subst v.
      constructor. intros k' v' e' Hin' Hv' He'. rewrite forallb_forall in H2. pose proof (dget_In _ _ He') as Hin3. specialize (H2 _ Hin3). cbn [snd] in H2.
      destruct e' as [f|]; [|discriminate]. specialize (HK2 _ _ Hin). apply keys_obj in HK2 as [HK3 _].
      eapply (Hleaf [k; k']); [|cbn [at_]; rewrite Hdk, (In_dget _ _ _ HK3 Hin'); reflexivity|auto|destruct (find_field c f); [eauto|discriminate]].
      apply paths_MN; auto. exists (MN m). split; auto. specialize (Hw2 _ Hin2). cbn [snd mwf] in Hw2. apply andb_true_iff in Hw2 as [Hw2 _]. apply ndb_NoDup in Hw2.
      apply paths_MN; auto. exists (MF f). split; auto. left; auto. }
  assert (Hqo : queue_ok true [(Map (dapmap c), JObj d)]).
  { intros p0 [<-|[]]. exists (dapmap c). cbn [fst snd]. split; [auto|split; [apply tables_wf|auto]]. }
  destruct (run_queue_ok sub c 8 true _ Hqo) as (a & Ha).
  { intros m j [E|[]]. injection E as <- <-. split; auto. clear. apply Nat.leb_le. destruct c; vm_compute; reflexivity. }
  rewrite Ha. cbn [bind]. destruct (run_queue_sem sub c 8 true _ a Ha Hqo) as [_ Hcomp].
  apply build_ok. intros fd Hfd. destruct (Hr _ Hfd) as [H|(p & Hp & Hv)]; [auto|]. right.
  apply from_In in Hp. destruct (Hcomp (dapmap c) (JObj d) p (fname fd)) as (fd' & x & _ & _ & Hx); auto; [left; auto|]. eauto.
Qed.

Lemma jdepth_in d k v : In (k, v) d -> jdepth v < jdepth (JObj d).
Proof.
  cbn [jdepth]. induction d as [|[k0 v0] d IH]; [intros []|]. cbn [fold_right snd]. intros [E|H]; [injection E as <- <-; lia|]. specialize (IH H). lia.
Qed.
Lemma jdepth_at j p : at_ j p <> JNull -> jdepth (at_ j p) + length p <= jdepth j.
Proof.
  revert j. induction p as [|k p IH]; intros j H; [cbn [at_ length]; lia|]. destruct j as [| | | | |d]; try (cbn in H; congruence).
  cbn [at_] in *. destruct (dget d k) as [v|] eqn:E; [|congruence]. apply dget_In, jdepth_in in E. specialize (IH v H). cbn [length]. lia.
Qed.

Ltac struct Hp Hf Hu :=
  cbn [dapmap entry_paths flat_map map app fst snd In] in Hp;
  repeat (destruct Hp as [Hp|Hp]; [injection Hp as <- <-; vm_compute in Hf; injection Hf as <-; cbn [funp] in Hu; try (exfalso; apply Hu; reflexivity)|]);
  [..|destruct Hp].
Ltac deflt Hfd := cbn [fields In] in Hfd; repeat (destruct Hfd as [<-|Hfd]; [try (left; eexists; reflexivity)|]); [..|destruct Hfd].

Lemma accept_source n j : is_object j -> keys_ok j -> unreserved j -> member j "sources" = JNull -> member j "checksums" = JNull ->
  exists v, unpack_obj (S n) C_Source j = Ok v.
Proof.
  intros HO HK HT H1 H2. apply accept; [reflexivity|vm_compute; reflexivity|assumption|assumption|now apply unres_top| | |].
  - intros p f fd Hp Hf Hu Hn. struct Hp Hf Hu; exfalso; apply Hn; [exact H1|exact H2].
  - intros k m Hin. cbn [dapmap In] in Hin. repeat (destruct Hin as [Hin|Hin]; [discriminate|]). destruct Hin.
  - intros fd Hfd. deflt Hfd.
Qed.
Lemma accept_bp n j b : bp_says j b -> keys_ok j -> unreserved j -> exists v, unpack_obj (S n) C_SourceBreakpoint j = Ok v.
Proof.
  intros (HO & Hl & Hc) HK HT. apply accept; [reflexivity|vm_compute; reflexivity|assumption|assumption|now apply unres_top| | |].
  - intros p f fd Hp Hf Hu Hn. struct Hp Hf Hu.
  - intros k m Hin. cbn [dapmap In] in Hin. repeat (destruct Hin as [Hin|Hin]; [discriminate|]). destruct Hin.
  - intros fd Hfd. deflt Hfd. right. exists [s "line"]. split; [vm_compute; tauto|]. unfold member in Hl. rewrite Hl. discriminate.
Qed.

Lemma accept_request j cmd c :
  called j cmd -> dget reg_request (s cmd) = Some c -> (exists v, cls_unpack c j = Ok v) -> exists v, unpack_msg j = Ok v.
Proof.
  intros [Ht Hc] Hr Hv. destruct j as [| | | | |d]; try discriminate Ht.
  apply member_dget in Ht; [|discriminate]. apply member_dget in Hc; [|discriminate].
  cbn [unpack_msg]. unfold getitem. rewrite Ht. cbn [bind].
  change (reg_get registry (JStr (s "request"))) with (@Ok (option mtype) (Some MReq)). cbn [bind]. rewrite Hc. cbn [bind reg_get]. rewrite Hr. exact Hv.
Qed.

(** C65: such a request is accepted, whatever other members it has, unless one of the structured
    members nobody reads is itself malformed. *)
Theorem C65_request_accepted : forall single l j q r, json_text l j -> unreserved j -> says single j q r -> no_structured_extras j ->
  exists v, unpack_msg j = Ok v.
Proof.
  intros single l j q r HL HT [HS HA] (X1 & X2 & X3 & X4 & X5).
  assert (HK : keys_ok j) by (apply C05_json_exact in HL; eapply loads_keys; eauto). clear HL.
  assert (HO : is_object j) by (destruct j as [| | | | |d]; try discriminate HS; eexists; reflexivity).
  pose proof (unres_top _ HT) as HT'.
  assert (Hargs : forall k, arg j k <> JNull -> member j "arguments" = JNull \/ is_object (member j "arguments")).
  { intros k Hk. right. unfold arg, member in *. destruct j as [| | | | |d]; try (exfalso; apply Hk; reflexivity). cbn [at_] in *.
    destruct (dget d (s "arguments")) as [[| | | | |d']|]; try (exfalso; apply Hk; reflexivity). eexists; reflexivity. }
  unfold arg, member, num, text in *.
  destruct HA as [Hc|t b Hc H1 H2|o Hc Ho H1|e f c Hc H1 H2 H3|t Hc H1|f Hc H1|fl Hc Ho H1|x bl m Hc H1 H2 H3|rf n vl Hc H1 H2 H3|t Hc H1|t Hc H1 H2|t Hc H1|Hc Ho|Hc|rf Hc H1];
    (match type of Hc with called _ ?cmd => eassert (Hr : dget reg_request (s cmd) = Some _) by (vm_compute; reflexivity) end;
     eapply accept_request; [exact Hc|exact Hr|]; destruct Hc as [Hty Hcm]; unfold member in Hty, Hcm; unfold cls_unpack;
     apply accept; [reflexivity|vm_compute; reflexivity|assumption|assumption|assumption| | |];
     [ intros p f0 fd Hp Hf Hu Hn; struct Hp Hf Hu;
         first [rewrite Hty; eexists; vm_compute; reflexivity | rewrite Hcm; eexists; vm_compute; reflexivity | exfalso; apply Hn; assumption | idtac]
     | intros k mm Hin; cbn [dapmap In] in Hin; repeat (destruct Hin as [Hin|Hin]; [first [discriminate|injection Hin as <- <-]|]); [..|destruct Hin];
         first [exact Ho | eapply Hargs; intros E; unfold arg in E; rewrite H1 in E; discriminate | idtac]
     | intros fd Hfd; deflt Hfd; right; first [eexists; split; [left; reflexivity|]; cbn [at_]; congruence | idtac] ]).
  all: unfold num, text, arg, member in *.
  all: try match goal with H : at_ _ [s "arguments"; s ?k] = ?x |- _ \/ _ => apply (Hargs k); rewrite H; discriminate end.
  all: try match goal with H : at_ _ ?p = ?x |- exists p, _ => exists p; split; [vm_compute; tauto|rewrite H; discriminate] end.
  - destruct H1 as [(ds & Hd) _]. pose proof (jdepth_at j _ Hn) as Hj. cbn [length] in Hj.
    destruct (jdepth j) as [|n] eqn:Ej; [lia|]. cbn [funp]. rewrite Hd. cbn [unpack_field apply_unpacker].
    rewrite <- Hd. apply accept_source; auto using at_keys, at_unres. eexists; exact Hd.
  - destruct H2 as [(js & Hj & HF)|[Hj _]]; [|exfalso; apply Hn; exact Hj].
    pose proof (jdepth_at j _ Hn) as Hd. pose proof (at_keys j [s "arguments"; s "breakpoints"] HK) as HKb. pose proof (at_unres j [s "arguments"; s "breakpoints"] HT) as HTb.
    rewrite Hj in *. cbn [funp unpack_field]. cbn [length] in Hd. destruct (jdepth j) as [|n]; [lia|].
    assert (Hm : exists vs, mapM (apply_unpacker (unpack_obj (S n)) (UObj C_SourceBreakpoint)) js = Ok vs).
    { clear -HF HKb HTb. rewrite keys_arr in HKb. induction HF as [|y b js bl Hy HF IH]; [eexists; reflexivity|]. rewrite mapM_cons. cbn [apply_unpacker].
      destruct (accept_bp n y b Hy) as (w & Hw); [apply HKb; left; auto|eapply unres_arr; [exact HTb|left; auto]|]. rewrite Hw. cbn [bind].
      destruct IH as (vs & Hvs); [intros; apply HKb; right; auto|cbn [unreserved fold_right] in *; tauto|]. rewrite Hvs. cbn [bind]. eauto. }
    destruct Hm as (vs & Hm). rewrite Hm. cbn [bind]. eauto.
  - destruct H1 as [(ds & Hd) _]. apply (Hargs "source"%string). rewrite Hd. discriminate.
  - destruct H1 as [(ds & Hd) _]. exists [s "arguments"; s "source"]. split; [vm_compute; tauto|]. rewrite Hd. discriminate.
Qed.
