From Verif Require Import PyBase PyDict JsonModel JsonProofs MsgBase MsgTables MsgModel MsgSpec.
From Coq Require Import ZifyBool ZifyNat ZifyN.

Section PvalInd.
  Variable P : pval -> Prop.
  Hypothesis Hn : P PNull.
  Hypothesis Hb : forall b, P (PBool b).
  Hypothesis Hi : forall z, P (PInt z).
  Hypothesis Hs : forall t, P (PStr t).
  Hypothesis Hl : forall l, Forall P l -> P (PList l).
  Hypothesis Hd : forall d, Forall (fun kv => P (snd kv)) d -> P (PDict d).
  Hypothesis He : forall e t, P (PEnum e t).
  Hypothesis Ho : forall c d, Forall (fun kv => P (snd kv)) d -> P (PObj c d).
  Fixpoint pval_ind2 (v : pval) : P v :=
    match v with
    | PNull => Hn | PBool b => Hb b | PInt z => Hi z | PStr t => Hs t
    | PList l => Hl _ ((fix go l := match l return Forall P l with [] => Forall_nil _ | x :: r => Forall_cons _ (pval_ind2 x) (go r) end) l)
    | PDict d => Hd _ ((fix go d := match d return Forall (fun kv => P (snd kv)) d with [] => Forall_nil _ | x :: r => Forall_cons _ (pval_ind2 (snd x)) (go r) end) d)
    | PEnum e t => He e t
    | PObj c d => Ho c _ ((fix go d := match d return Forall (fun kv => P (snd kv)) d with [] => Forall_nil _ | x :: r => Forall_cons _ (pval_ind2 (snd x)) (go r) end) d)
    end.
End PvalInd.

Lemma alls_Forall {A} (P : A -> Prop) l : fold_right (fun x Q => P x /\ Q) True l <-> Forall P l.
Proof.
  induction l as [|x l IH]; cbn; [split; auto|]. rewrite IH. split.
  - intros [H1 H2]; constructor; auto.
  - intros H; inversion H; auto.
Qed.

(** * Table checks, evaluated on all classes *)
Definition nodupb (l : list pystr) : bool :=
  (fix go l := match l with [] => true | x :: r => negb (mem x r) && go r end) l.
Lemma nodupb_NoDup l : nodupb l = true -> NoDup l.
Proof.
  induction l as [|x l IH]; cbn; [constructor|]. rewrite andb_true_iff, negb_true_iff, mem_not_In.
  intros [H1 H2]. constructor; auto.
Qed.
Definition asciib (t : pystr) : bool := forallb (fun c => (c <? 128)%N) t.
Lemma asciib_scalar t : asciib t = true -> Forall scalar t.
Proof.
  unfold asciib. rewrite forallb_forall, Forall_forall. intros H x Hx. specialize (H x Hx). unfold scalar. lia.
Qed.
Definition has_field (c : cid) (f : pystr) : bool := match find_field c f with Some _ => true | None => false end.
Definition leafb (c : cid) (ke : pystr * mentry) : bool :=
  asciib (fst ke) && match snd ke with MF f => has_field c f | MN _ => false end.
Definition entryb (c : cid) (ke : pystr * mentry) : bool :=
  asciib (fst ke) && negb (eqb (fst ke) (s "__types")) &&
  match snd ke with
  | MF f => has_field c f
  | MN m => forallb (leafb c) m && nodupb (map fst m)
  end.
Definition table_ok (c : cid) : bool :=
  nodupb (map fname (fields c)) && nodupb (map fst (dapmap c)) && forallb (entryb c) (dapmap c).

Lemma all_cids_complete c : In c all_cids.
Proof. destruct c; cbn; tauto. Qed.
Lemma all_tables_ok : forallb table_ok all_cids = true.
Proof. vm_compute. reflexivity. Qed.
Lemma tables_ok c : table_ok c = true.
Proof. pose proof all_tables_ok as H. rewrite forallb_forall in H. apply H, all_cids_complete. Qed.
Lemma members_ascii e t : In t (members e) -> Forall scalar t.
Proof.
  intros H. apply asciib_scalar. revert H.
  assert (Hall : forallb asciib (members e) = true) by (destruct e; vm_compute; reflexivity).
  rewrite forallb_forall in Hall. auto.
Qed.

(** * Encoding *)
Lemma enc_lift j : enc (lift j) = Ok j.
Proof.
  induction j as [| | | |l IH|d IH] using json_ind2; cbn; auto.
  - assert (H : mapM enc (map lift l) = Ok l).
    { induction IH as [|x l Hx IH1 IH2]; auto. cbn [map]. rewrite mapM_cons, Hx. cbn. now rewrite IH2. }
    now rewrite H.
  - match goal with |- context [mapM ?f ?l] => assert (H : mapM f l = Ok d) end.
    { induction IH as [|[k x] d Hx IH1 IH2]; auto. cbn [map]. rewrite mapM_cons. cbn in Hx |- *. rewrite Hx. cbn.
      now rewrite IH2. }
    now rewrite H.
Qed.
Lemma jsonval_lift v : jsonval v -> exists j, v = lift j /\ wfj j.
Proof.
  induction v as [|b|z|t|l IH|d IH|e t|c d IH] using pval_ind2; cbn; intros H.
  - exists JNull; cbn; auto.
  - exists (JBool b); cbn; auto.
  - exists (JInt z); cbn; auto.
  - exists (JStr t); cbn; auto.
  - assert (exists js, l = map lift js /\ fold_right (fun x P => wfj x /\ P) True js) as (js & -> & Hw).
    { induction IH as [|x l Hx IH1 IH2]; [exists []; cbn; auto|]. destruct H as [H1 H2].
      destruct (Hx H1) as (j & -> & Hj). destruct (IH2 H2) as (js & -> & Hjs). exists (j :: js); cbn; auto. }
    exists (JArr js). cbn; auto.
  - destruct H as [Hnd H].
    assert (exists js, d = map (fun kv => (fst kv, lift (snd kv))) js /\ fold_right (fun kv P => Forall scalar (fst kv) /\ wfj (snd kv) /\ P) True js) as (js & -> & Hw).
    { clear Hnd. induction IH as [|[k x] l Hx IH1 IH2]; [exists []; cbn; auto|]. destruct H as [[H0 H1] H2]. cbn [fst snd] in *.
      destruct (Hx H1) as (j & -> & Hj). destruct (IH2 H2) as (js & -> & Hjs). exists ((k, j) :: js); cbn; auto. }
    exists (JObj js). cbn. split; auto. split; auto. rewrite map_map in Hnd. cbn in Hnd. exact Hnd.
  - tauto.
  - tauto.
Qed.

Definition enc_attrs (l : list (pystr * pval)) : res (list (pystr * json)) :=
  mapM (fun kv => do x <- enc (snd kv); Ok (fst kv, x)) l.

Lemma enc_attrs_spec l :
  (forall kv, In kv l -> exists j, enc (snd kv) = Ok j) ->
  exists r, enc_attrs l = Ok r /\ map fst r = map fst l /\
    forall f, dget r f = match dget l f with Some v => (match enc v with Ok j => Some j | Err _ => None end) | None => None end.
Proof.
  induction l as [|[k v] l IH]; intros H; [exists []; cbn; auto|].
  destruct (H (k, v)) as (j & Hj); [left; auto|]. cbn in Hj.
  destruct IH as (r & Hr & Hk & Hg); [intros; apply H; right; auto|].
  exists ((k, j) :: r). split; [|split].
  - unfold enc_attrs in *. rewrite mapM_cons. cbn. rewrite Hj. cbn. now rewrite Hr.
  - cbn. now rewrite Hk.
  - intros f. cbn [dget]. destruct (eqb k f); [now rewrite Hj|auto].
Qed.

Lemma find_field_In c n f : find_field c n = Some f -> In f (fields c) /\ fname f = n.
Proof. unfold find_field. intros H. apply find_some in H. destruct H as [H1 H2]. split; auto. now apply eqb_eq. Qed.
Lemma has_field_key c f : has_field c f = true -> exists fd, find_field c f = Some fd /\ In f (map fname (fields c)).
Proof.
  unfold has_field. destruct (find_field c f) eqn:E; [|discriminate]. intros _. exists f0. split; auto.
  apply find_field_In in E. destruct E as [E <-]. now apply in_map.
Qed.

(** the JSON the packer writes for a mapping, as a total function *)
Definition getj (r : list (pystr * json)) (f : pystr) : json := match dget r f with Some j => j | None => JNull end.
Definition leafj (r : list (pystr * json)) (ke : pystr * mentry) : pystr * json :=
  (fst ke, match snd ke with MF f => getj r f | MN _ => JNull end).
Definition entryj (r : list (pystr * json)) (ke : pystr * mentry) : pystr * json :=
  (fst ke, match snd ke with MF f => getj r f | MN m => JObj (map (leafj r) m) end).

Lemma default_pack_ok c r : map fst r = map fname (fields c) -> default_pack c r = Ok (map (entryj r) (dapmap c)).
Proof.
  intros Hk. unfold default_pack. apply mapM_ok. intros [k e] Hin.
  pose proof (tables_ok c) as Ht. unfold table_ok in Ht. rewrite !andb_true_iff in Ht. destruct Ht as [_ Ht].
  rewrite forallb_forall in Ht. specialize (Ht _ Hin). unfold entryb in Ht. cbn [fst snd] in Ht.
  assert (Hf : forall f, has_field c f = true -> dget r f = Some (getj r f)).
  { intros f Hf. apply has_field_key in Hf. destruct Hf as (fd & _ & Hf). rewrite <- Hk in Hf.
    apply dget_key_ex in Hf. destruct Hf as (v & Hv). unfold getj. now rewrite Hv. }
  destruct e as [f|m]; cbn.
  - rewrite !andb_true_iff in Ht. rewrite Hf by tauto. reflexivity.
  - rewrite !andb_true_iff in Ht. destruct Ht as (_ & Hm & _). rewrite forallb_forall in Hm.
    match goal with |- context [mapM ?g m] => assert (HH : mapM g m = Ok (map (leafj r) m)) end.
    { apply mapM_ok. intros [k' e'] Hin'. specialize (Hm _ Hin'). unfold leafb in Hm. cbn [fst snd] in Hm.
      destruct e' as [f|]; [|rewrite andb_false_r in Hm; discriminate]. cbn. rewrite Hf; auto.
      rewrite andb_true_iff in Hm; tauto. }
    rewrite HH. reflexivity.
Qed.

(** an attribute value as a whole (what [wt] demands of one attribute) *)
Definition wta (fd : field) (v : pval) : Prop :=
  match v with
  | PNull => fdef fd = FDef PNull
  | PList l => fold_right (fun x Q => wt (funp fd) x /\ Q) True l
  | _ => wt (funp fd) v
  end.

Lemma wt_obj c v : wt (UObj c) v <-> exists attrs, v = PObj c attrs /\ custom c = false /\ map fst attrs = map fname (fields c) /\
   (forall k x fd, In (k, x) attrs -> In fd (fields c) -> fname fd = k -> wta fd x /\ (~ mapped c k -> fdef fd = FDef x)).
Proof.
  split.
  - destruct v; cbn; try tauto. intros (-> & Hc & Hk & H). exists attrs. split; auto. split; auto. split; auto.
    rewrite alls_Forall, Forall_forall in H. intros k x fd Hin Hfd Hn. exact (H (k, x) Hin fd Hfd Hn).
  - intros (attrs & -> & Hc & Hk & H). cbn. split; auto. split; auto. split; auto.
    rewrite alls_Forall, Forall_forall. intros [k x] Hin fd Hfd Hn. exact (H k x fd Hin Hfd Hn).
Qed.

(** * Encoding succeeds and gives well-formed JSON *)
Definition enc_good (v : pval) : Prop :=
  (forall u, wt u v -> exists j, enc v = Ok j /\ wfj j /\ (v <> PNull -> j <> JNull)) /\
  (forall u l, v = PList l -> fold_right (fun x Q => wt u x /\ Q) True l ->
     exists js, mapM enc l = Ok js /\ fold_right (fun x P => wfj x /\ P) True js).

Lemma NoDup_dapmap c : NoDup (map fst (dapmap c)).
Proof.
  pose proof (tables_ok c) as Ht. unfold table_ok in Ht. rewrite !andb_true_iff in Ht. apply nodupb_NoDup; tauto.
Qed.
Lemma NoDup_fields c : NoDup (map fname (fields c)).
Proof.
  pose proof (tables_ok c) as Ht. unfold table_ok in Ht. rewrite !andb_true_iff in Ht. apply nodupb_NoDup; tauto.
Qed.
Lemma entry_ok c ke : In ke (dapmap c) -> entryb c ke = true.
Proof.
  pose proof (tables_ok c) as Ht. unfold table_ok in Ht. rewrite !andb_true_iff in Ht. destruct Ht as [_ Ht].
  rewrite forallb_forall in Ht. auto.
Qed.

Lemma enc_list_good l : Forall enc_good l -> forall u, fold_right (fun x Q => wt u x /\ Q) True l ->
  exists js, mapM enc l = Ok js /\ fold_right (fun x P => wfj x /\ P) True js.
Proof.
  intros H u. induction H as [|x l Hx Hl IH]; [exists []; cbn; auto|]. intros [H1 H2].
  destruct (proj1 Hx u H1) as (j & Hj & Hw & _). destruct (IH H2) as (js & Hjs & Hws).
  exists (j :: js). rewrite mapM_cons, Hj. cbn. rewrite Hjs. cbn. auto.
Qed.

Lemma wfj_obj d : NoDup (map fst d) -> (forall k v, In (k, v) d -> Forall scalar k /\ wfj v) -> wfj (JObj d).
Proof.
  intros Hnd H. cbn. split; auto. clear Hnd. induction d as [|[k v] d IH]; cbn; auto.
  destruct (H k v); [left; auto|]. split; auto. split; auto. apply IH. intros; apply H; right; auto.
Qed.

Lemma getj_wf r f : (forall v, dget r f = Some v -> wfj v) -> wfj (getj r f).
Proof. intros H. unfold getj. destruct (dget r f); auto. exact I. Qed.

Lemma map_entryj_wf c r : (forall f v, dget r f = Some v -> wfj v) -> wfj (JObj (map (entryj r) (dapmap c))).
Proof.
  intros Hr. apply wfj_obj.
  - rewrite map_map. cbn. apply NoDup_dapmap.
  - intros k v Hin. apply in_map_iff in Hin. destruct Hin as ([k' e] & Heq & Hin). unfold entryj in Heq. cbn in Heq.
    injection Heq as -> <-. pose proof (entry_ok _ _ Hin) as He. unfold entryb in He. cbn [fst snd] in He. rewrite !andb_true_iff in He.
    destruct He as [[Ha _] He]. split; [now apply asciib_scalar|].
    destruct e as [f|m]; [apply getj_wf, Hr|].
    rewrite andb_true_iff in He. destruct He as [Hm Hnd].
    apply wfj_obj.
    + rewrite map_map. cbn. now apply nodupb_NoDup.
    + intros k2 v2 Hin2. apply in_map_iff in Hin2. destruct Hin2 as ([k3 e3] & Heq & Hin3). unfold leafj in Heq. cbn in Heq.
      injection Heq as -> <-. rewrite forallb_forall in Hm. specialize (Hm _ Hin3). unfold leafb in Hm. cbn [fst snd] in Hm.
      rewrite andb_true_iff in Hm. split; [apply asciib_scalar; tauto|].
      destruct e3; [apply getj_wf, Hr|exact I].
Qed.


Lemma wta_enc fd v : enc_good v -> wta fd v -> exists j, enc v = Ok j /\ wfj j /\ (v <> PNull -> j <> JNull).
Proof.
  intros [H1 H2] Hw. unfold wta in Hw.
  destruct v as [|b|z|t|l|d'|e t|c d']; try (exact (H1 _ Hw)).
  - exists JNull. cbn; auto.
  - destruct (H2 _ _ eq_refl Hw) as (js & Hjs & Hwf). exists (JArr js). cbn. rewrite Hjs. cbn. split; auto.
    split; auto. congruence.
Qed.

Lemma obj_attrs_enc c attrs :
  (forall k x, In (k, x) attrs -> enc_good x) -> map fst attrs = map fname (fields c) ->
  (forall k x fd, In (k, x) attrs -> In fd (fields c) -> fname fd = k -> wta fd x /\ (~ mapped c k -> fdef fd = FDef x)) ->
  exists r, enc_attrs attrs = Ok r /\ map fst r = map fname (fields c) /\
    (forall f x, dget attrs f = Some x -> exists j, dget r f = Some j /\ enc x = Ok j /\ wfj j /\ (x <> PNull -> j <> JNull)) /\
    (forall f j, dget r f = Some j -> wfj j).
Proof.
  intros IH Hk Hw.
  assert (Henc : forall k x, In (k, x) attrs -> exists j, enc x = Ok j /\ wfj j /\ (x <> PNull -> j <> JNull)).
  { intros k x Hin.
    assert (Hkin : In k (map fname (fields c))) by (rewrite <- Hk; apply (in_map fst) in Hin; auto).
    apply in_map_iff in Hkin. destruct Hkin as (fd & Hfn & Hfd).
    destruct (Hw k x fd Hin Hfd Hfn) as [Hwa _]. eapply wta_enc; eauto. }
  destruct (enc_attrs_spec attrs) as (r & Hr & Hrk & Hg).
  { intros [k x] Hin. destruct (Henc k x Hin) as (j & Hj & _). exists j; auto. }
  exists r. split; auto. split; [congruence|].
  assert (Hget : forall f x, dget attrs f = Some x -> exists j, dget r f = Some j /\ enc x = Ok j /\ wfj j /\ (x <> PNull -> j <> JNull)).
  { intros f x Hx. destruct (Henc f x) as (j & Hj & Hj2 & Hj3); [now apply dget_In|].
    exists j. rewrite Hg, Hx, Hj. auto. }
  split; auto. intros f j Hj. rewrite Hg in Hj. destruct (dget attrs f) as [x|] eqn:Hx; [|discriminate].
  destruct (Hget _ _ Hx) as (j' & _ & H1 & H2 & _). rewrite H1 in Hj. congruence.
Qed.

Lemma wt_enc v : enc_good v.
Proof.
  induction v as [|b|z|t|l IH|d IH|e t|c d IH] using pval_ind2; (split; [intros u Hw|intros u0 l0 Heq0; try discriminate Heq0]).
  1-4,7: (destruct u; cbn [wt] in Hw; try tauto;
      destruct (jsonval_lift _ Hw) as (j & Hj & Hwf); rewrite Hj, enc_lift; exists j; split; auto; split; auto;
      intros Hne ->; cbn in Hj; congruence).
  - destruct u as [|e|c]; cbn [wt] in Hw; try tauto.
    destruct (jsonval_lift _ Hw) as (j & Hj & Hwf); rewrite Hj, enc_lift; exists j; split; auto; split; auto.
    intros _ ->. cbn in Hj. discriminate.
  - injection Heq0 as <-. now apply enc_list_good.
  - destruct u as [|e'|c]; cbn in Hw; try tauto. destruct Hw as [-> Hin]. exists (JStr t). cbn.
    split; auto. split; [|congruence]. eapply members_ascii; eauto.
  - destruct u as [|e'|c']; [cbn in Hw; tauto|cbn in Hw; tauto|].
    apply wt_obj in Hw. destruct Hw as (attrs & Heq & Hc & Hk & Hw). injection Heq as -> <-.
    rewrite Forall_forall in IH.
    destruct (obj_attrs_enc c' d) as (r & Hr & Hrk & Hg & Hwf); auto.
    { intros k x Hin. exact (IH (k, x) Hin). }
    exists (JObj (map (entryj r) (dapmap c'))). cbn [enc].
    change (mapM _ d) with (enc_attrs d). rewrite Hr. cbn [bind]. unfold pack_attrs. rewrite Hc.
    rewrite default_pack_ok by auto. cbn [bind]. split; auto. split; [|congruence].
    now apply map_entryj_wf.
Qed.

(** * Unpacking the packed object *)
Lemma jdepth_In_obj k j d : In (k, j) d -> jdepth j < jdepth (JObj d).
Proof.
  induction d as [|[k' j'] d IH]; cbn; [tauto|]. intros [H|H]; [injection H as -> ->; lia|].
  specialize (IH H). cbn in IH. lia.
Qed.
Lemma jdepth_In_arr j l : In j l -> jdepth j < jdepth (JArr l).
Proof.
  induction l as [|j' l IH]; cbn; [tauto|]. intros [->|H]; [lia|]. specialize (IH H). cbn in IH. lia.
Qed.

Definition assign (attrs : list (pystr * pval)) (ke : pystr * mentry) : list (pystr * pval) :=
  match snd ke with
  | MF f => match dget attrs f with Some PNull => [] | None => [] | Some v => [(f, v)] end
  | MN _ => []
  end.
Definition nexts (r : list (pystr * json)) (ke : pystr * mentry) : list (mapping * json) :=
  match snd ke with MF _ => [] | MN m' => [(Map m', JObj (map (leafj r) m'))] end.

Lemma level_ok sub c top (attrs : list (pystr * pval)) r m0 m :
  NoDup (map fst m0) ->
  (forall ke, In ke m -> In ke m0) ->
  (forall k e, In (k, e) m -> (top = true -> eqb k (s "__types") = false) /\
      match e with MF f => In f (map fst attrs) /\ has_field c f = true /\ mapped c f | MN _ => True end) ->
  (forall f fd v, mapped c f -> dget attrs f = Some v -> find_field c f = Some fd ->
      (v = PNull -> getj r f = JNull) /\ (v <> PNull -> getj r f <> JNull /\ unpack_field sub (funp fd) (getj r f) = Ok v)) ->
  level_items sub c top m0 (map (entryj r) m) = Ok (flat_map (assign attrs) m, flat_map (nexts r) m).
Proof.
  intros Hnd Hsub Hm Hf. induction m as [|[k e] m IH]; [reflexivity|].
  cbn [map entryj level_items fst snd].
  assert (Hrest : level_items sub c top m0 (map (entryj r) m) = Ok (flat_map (assign attrs) m, flat_map (nexts r) m)).
  { apply IH; intros; [apply Hsub; right; auto|apply Hm; right; auto]. }
  assert (Hget : dget m0 k = Some e) by (apply In_dget; [exact Hnd|apply Hsub; left; auto]).
  destruct (Hm k e) as [Hty He]; [left; auto|].
  assert (Hty2 : top && eqb k (s "__types") = false) by (destruct top; cbn [andb]; auto).
  cbn [flat_map]. unfold entryj at 1. cbn [fst snd].
  destruct e as [f|m'].
  - destruct He as (He & Hff & Hmp). destruct (dget_key_ex attrs f He) as (v & Hv).
    apply has_field_key in Hff. destruct Hff as (fd & Hfd & _).
    destruct (Hf _ _ _ Hmp Hv Hfd) as [H1 H2].
    assert (Hcase : v = PNull \/ v <> PNull) by (destruct v; auto; right; discriminate).
    destruct Hcase as [Hn|Hn].
    + rewrite (H1 Hn). unfold assign at 1. cbn [snd]. rewrite Hv, Hn. exact Hrest.
    + destruct (H2 Hn) as [H3 H4]. unfold assign at 1. cbn [snd]. rewrite Hv.
      replace (match v with PNull => [] | _ => [(f, v)] end) with [(f, v)] by (destruct v; congruence).
      destruct (getj r f) eqn:Eg; try congruence;
        (rewrite Hty2, Hget, Hfd; rewrite <- Eg in H4; rewrite <- Eg; rewrite H4; cbn [bind]; rewrite Hrest; reflexivity).
  - unfold assign at 1, nexts at 1. cbn [snd]. rewrite Hty2, Hget, Hrest. reflexivity.
Qed.

Lemma mapped_in c f : In f (flat_map (fun ke => entry_fields (snd ke)) (dapmap c)) -> mapped c f.
Proof. exact (fun H => H). Qed.

Lemma run_queue_nil sub n c top : run_queue sub n c top [] = Ok [].
Proof. destruct n; reflexivity. Qed.

Lemma run_queue_cons sub n c top p q : run_queue sub (S n) c top (p :: q) =
  do rs <- mapM (do_pair sub c top) (p :: q); do rest <- run_queue sub n c false (flat_map snd rs); Ok (flat_map fst rs ++ rest).
Proof. reflexivity. Qed.

Lemma level2_ok sub c attrs r :
  (forall f, has_field c f = true -> In f (map fst attrs)) ->
  (forall f fd v, mapped c f -> dget attrs f = Some v -> find_field c f = Some fd ->
      (v = PNull -> getj r f = JNull) /\ (v <> PNull -> getj r f <> JNull /\ unpack_field sub (funp fd) (getj r f) = Ok v)) ->
  run_queue sub 8 c true [(Map (dapmap c), JObj (map (entryj r) (dapmap c)))] =
    Ok (flat_map (assign attrs) (dapmap c) ++
        flat_map (fun ke => match snd ke with MN m => flat_map (assign attrs) m | MF _ => [] end) (dapmap c)).
Proof.
  intros Hhf Hf. rewrite run_queue_cons. rewrite mapM_cons, mapM_nil.
  unfold do_pair at 1. cbn [snd fst items_of bind].
  rewrite (level_ok sub c true attrs r (dapmap c) (dapmap c)); auto using NoDup_dapmap.
  2:{ intros k e Hin. pose proof (entry_ok _ _ Hin) as He. unfold entryb in He. cbn [fst snd] in He.
      rewrite !andb_true_iff, negb_true_iff in He. destruct He as [[_ H1] H2]. split; auto.
      destruct e as [f0|]; auto. split; [now apply Hhf|]. split; auto. unfold mapped. apply in_flat_map. exists (k, MF f0).
      split; auto. left; auto. }
  cbn [bind flat_map fst snd app]. rewrite !app_nil_r.
  assert (Hq : forall m0, (forall ke, In ke m0 -> In ke (dapmap c)) ->
    mapM (do_pair sub c false) (flat_map (nexts r) m0) =
    Ok (flat_map (fun ke => match snd ke with MN m => [(flat_map (assign attrs) m, [])] | MF _ => [] end) m0)).
  { intros m0 Hm0. induction m0 as [|[k e] m0 IH]; [reflexivity|].
    cbn [flat_map]. unfold nexts at 1. cbn [snd]. destruct e as [f|m].
    - apply IH. intros; apply Hm0; right; auto.
    - cbn [app]. rewrite mapM_cons. unfold do_pair at 1. cbn [snd fst items_of bind].
      pose proof (entry_ok c (k, MN m) ltac:(apply Hm0; left; auto)) as He.
      unfold entryb in He. cbn [fst snd] in He. rewrite !andb_true_iff in He. destruct He as (_ & Hl & Hnd).
      rewrite forallb_forall in Hl.
      assert (Heq : map (leafj r) m = map (entryj r) m).
      { apply map_ext_in. intros [k' e'] Hin. specialize (Hl _ Hin). unfold leafb in Hl. cbn [fst snd] in Hl.
        destruct e'; [reflexivity|]. rewrite andb_false_r in Hl. discriminate. }
      rewrite Heq, (level_ok sub c false attrs r m m); auto.
      + cbn [bind]. rewrite IH by (intros; apply Hm0; right; auto). cbn [bind].
        replace (flat_map (nexts r) m) with (@nil (mapping * json)); [reflexivity|].
        symmetry. clear -Hl. induction m as [|[k' e'] m IHm]; [reflexivity|]. cbn [flat_map].
        rewrite IHm by (intros; apply Hl; right; auto). specialize (Hl _ (or_introl eq_refl)). unfold leafb in Hl. cbn [fst snd] in Hl.
        destruct e'; [reflexivity|]. rewrite andb_false_r in Hl. discriminate.
      + now apply nodupb_NoDup.
      + intros k' e' Hin. split; [discriminate|]. specialize (Hl _ Hin). unfold leafb in Hl. cbn [fst snd] in Hl.
        rewrite andb_true_iff in Hl. destruct e' as [f0|]; auto. split; [apply Hhf; tauto|]. split; [tauto|].
        unfold mapped. apply in_flat_map. exists (k, MN m). split; [apply Hm0; left; auto|]. cbn [snd entry_fields].
        apply in_flat_map. exists (k', MF f0). split; auto. left; auto. }
  specialize (Hq (dapmap c) (fun _ H => H)).
  destruct (flat_map (nexts r) (dapmap c)) as [|p q] eqn:Eq.
  - rewrite run_queue_nil. cbn [bind]. rewrite app_nil_r. f_equal. rewrite mapM_nil in Hq. injection Hq as Hq.
    assert (Hz : forall m0, flat_map (fun ke : pystr * mentry => match snd ke with MN m => [(flat_map (assign attrs) m, @nil (mapping * json))] | MF _ => [] end) m0 = [] ->
       flat_map (fun ke : pystr * mentry => match snd ke with MN m => flat_map (assign attrs) m | MF _ => [] end) m0 = []).
    { induction m0 as [|[k [f|m]] m0 IH]; cbn; auto. discriminate. }
    rewrite Hz by auto. now rewrite app_nil_r.
  - rewrite <- Eq in *. destruct (flat_map (nexts r) (dapmap c)) eqn:Eq2; [congruence|]. rewrite <- Eq2 in *.
    rewrite Eq2, run_queue_cons, <- Eq2, Hq. cbn [bind].
    assert (Hz1 : forall m0, flat_map snd (flat_map (fun ke : pystr * mentry => match snd ke with MN m => [(flat_map (assign attrs) m, @nil (mapping * json))] | MF _ => [] end) m0) = []).
    { induction m0 as [|[k [f|m]] m0 IH]; cbn; auto. }
    assert (Hz2 : forall m0, flat_map fst (flat_map (fun ke : pystr * mentry => match snd ke with MN m => [(flat_map (assign attrs) m, @nil (mapping * json))] | MF _ => [] end) m0) =
        flat_map (fun ke : pystr * mentry => match snd ke with MN m => flat_map (assign attrs) m | MF _ => [] end) m0).
    { induction m0 as [|[k [f|m]] m0 IH]; cbn; auto. now rewrite IH. }
    rewrite Hz1, Hz2, run_queue_nil. cbn [bind]. now rewrite app_nil_r.
Qed.

Definition assigns (c : cid) (attrs : list (pystr * pval)) : list (pystr * pval) :=
  flat_map (assign attrs) (dapmap c) ++
        flat_map (fun ke => match snd ke with MN m => flat_map (assign attrs) m | MF _ => [] end) (dapmap c).

Lemma assign_sound attrs ke f x : In (f, x) (assign attrs ke) -> dget attrs f = Some x /\ x <> PNull.
Proof.
  unfold assign. destruct (snd ke) as [f'|]; [|cbn; tauto].
  destruct (dget attrs f') as [v|] eqn:E; [|cbn; tauto].
  destruct v; cbn; try tauto; (intros [H|[]]; injection H as <- <-; split; [auto|discriminate]).
Qed.
Lemma assigns_sound c attrs f x : In (f, x) (assigns c attrs) -> dget attrs f = Some x /\ x <> PNull.
Proof.
  unfold assigns. rewrite in_app_iff, !in_flat_map. intros [(ke & _ & H)|(ke & _ & H)].
  - eapply assign_sound; eauto.
  - destruct (snd ke); [destruct H|]. apply in_flat_map in H. destruct H as (ke' & _ & H). eapply assign_sound; eauto.
Qed.
Lemma assign_complete attrs k f v : dget attrs f = Some v -> v <> PNull -> In (f, v) (assign attrs (k, MF f)).
Proof. intros H Hn. unfold assign. cbn [snd]. rewrite H. destruct v; try congruence; left; auto. Qed.
Lemma assigns_complete c attrs f v : mapped c f -> dget attrs f = Some v -> v <> PNull -> In (f, v) (assigns c attrs).
Proof.
  intros Hm H Hn. unfold mapped in Hm. apply in_flat_map in Hm. destruct Hm as ([k e] & Hin & Hf). cbn in Hf.
  unfold assigns. rewrite in_app_iff, !in_flat_map. destruct e as [f'|m]; cbn in Hf.
  - destruct Hf as [->|[]]. left. exists (k, MF f). split; auto. now apply assign_complete.
  - right. exists (k, MN m). split; auto. cbn. apply in_flat_map in Hf. destruct Hf as ([k' e'] & Hin' & Hf). cbn in Hf.
    pose proof (entry_ok _ _ Hin) as He. unfold entryb in He. cbn [fst snd] in He. rewrite !andb_true_iff in He.
    destruct He as (_ & Hl & _). rewrite forallb_forall in Hl. specialize (Hl _ Hin'). unfold leafb in Hl. cbn [fst snd] in Hl.
    destruct e' as [f'|]; [|rewrite andb_false_r in Hl; discriminate]. cbn in Hf. destruct Hf as [->|[]].
    apply in_flat_map. exists (k', MF f). split; auto. now apply assign_complete.
Qed.

Lemma last_assign_spec c attrs f :
  last_assign (assigns c attrs) f = None \/
  exists v, last_assign (assigns c attrs) f = Some v /\ dget attrs f = Some v /\ v <> PNull.
Proof.
  unfold last_assign. destruct (dget (rev (assigns c attrs)) f) as [v|] eqn:E; auto. right. exists v. split; auto.
  apply dget_In in E. apply in_rev in E. now apply assigns_sound in E.
Qed.

Lemma dget_nodup_map {V} (l : list (pystr * V)) k v : NoDup (map fst l) -> In (k, v) l -> dget l k = Some v.
Proof. apply In_dget. Qed.

Lemma build_ok c attrs : map fst attrs = map fname (fields c) ->
  (forall k x fd, In (k, x) attrs -> In fd (fields c) -> fname fd = k -> wta fd x /\ (~ mapped c k -> fdef fd = FDef x)) ->
  build c (assigns c attrs) = Ok (PObj c attrs).
Proof.
  intros Hk Hw. unfold build.
  assert (Hnd : NoDup (map fst attrs)) by (rewrite Hk; apply NoDup_fields).
  assert (H : forall al fl, map fst al = map fname fl -> (forall p, In p al -> In p attrs) -> (forall fd, In fd fl -> In fd (fields c)) ->
     mapM (fun fd =>
      match last_assign (assigns c attrs) (fname fd) with
      | Some v => Ok (fname fd, v)
      | None => match fdef fd with FDef v => Ok (fname fd, v) | FReq => Err TypeError | FUnset => Err AttributeError end
      end) fl = Ok al).
  { induction al as [|[k x] al IH]; intros [|fd fl] Heq Ha Hfl; cbn in Heq; try discriminate; [reflexivity|].
    injection Heq as -> Heq. rewrite mapM_cons.
    assert (Hin : In (fname fd, x) attrs) by (apply Ha; left; auto).
    assert (Hg : dget attrs (fname fd) = Some x) by (now apply dget_nodup_map).
    destruct (Hw _ _ fd Hin (Hfl _ (or_introl eq_refl)) eq_refl) as [Hwa Hum].
    assert (Hone : match last_assign (assigns c attrs) (fname fd) with
      | Some v => Ok (fname fd, v)
      | None => match fdef fd with FDef v => Ok (fname fd, v) | FReq => Err TypeError | FUnset => Err AttributeError end
      end = Ok (fname fd, x)).
    { destruct (last_assign_spec c attrs (fname fd)) as [Hn|(v & Hv & Hv2 & _)].
      - rewrite Hn. assert (Hxd : fdef fd = FDef x); [|now rewrite Hxd].
        assert (Hcase : x = PNull \/ x <> PNull) by (destruct x; auto; right; discriminate).
        destruct Hcase as [->|Hxn]; [exact Hwa|]. apply Hum. intros Hm.
        pose proof (assigns_complete c attrs (fname fd) x Hm Hg Hxn) as Hc.
        unfold last_assign in Hn. apply dget_None in Hn. apply Hn. unfold dkeys. rewrite map_rev, <- in_rev.
        apply (in_map fst) in Hc. exact Hc.
      - rewrite Hv. congruence. }
    rewrite Hone. cbn [bind]. rewrite IH; auto.
    - intros; apply Ha; right; auto.
    - intros; apply Hfl; right; auto. }
  rewrite (H attrs (fields c)); auto.
Qed.

Definition unp_good (v : pval) : Prop :=
  (forall u j f, wt u v -> enc v = Ok j -> jdepth j <= f -> apply_unpacker (unpack_obj f) u j = Ok v) /\
  (forall u l js f, v = PList l -> fold_right (fun x Q => wt u x /\ Q) True l -> mapM enc l = Ok js ->
     (forall j, In j js -> jdepth j <= f) -> mapM (apply_unpacker (unpack_obj f) u) js = Ok l).

Lemma wta_unpack fd v j f : unp_good v -> wta fd v -> v <> PNull -> enc v = Ok j -> jdepth j <= f ->
  unpack_field (unpack_obj f) (funp fd) j = Ok v.
Proof.
  intros [H1 H2] Hw Hn He Hd. unfold wta in Hw.
  assert (Hgen : (forall l, v <> PList l) -> wt (funp fd) v -> unpack_field (unpack_obj f) (funp fd) j = Ok v).
  { intros Hnl Hwt. specialize (H1 _ _ _ Hwt He Hd). unfold unpack_field. destruct j; auto.
    exfalso. destruct v; cbn in He; try discriminate He; try (eapply Hnl; reflexivity).
    - destruct (mapM _ d); cbn in He; discriminate.
    - destruct (mapM _ attrs); cbn in He; [|discriminate]. destruct (pack_attrs c a); cbn in He; discriminate. }
  destruct v as [|b|z|t|l|d'|e t|c d']; try (apply Hgen; [intros; discriminate|exact Hw]).
  - congruence.
  - cbn in He. destruct (mapM enc l) as [js|] eqn:Em; cbn in He; [|discriminate]. injection He as <-.
    cbn [unpack_field]. rewrite (H2 _ _ _ f eq_refl Hw Em); [reflexivity|].
    intros j Hj. pose proof (jdepth_In_arr _ _ Hj). lia.
Qed.

Lemma enc_mapM_In l js : mapM enc l = Ok js -> forall j, In j js -> exists v, In v l /\ enc v = Ok j.
Proof.
  revert js. induction l as [|x l IH]; intros js; [rewrite mapM_nil; intros [= <-]; cbn; tauto|].
  rewrite mapM_cons. destruct (enc x) as [jx|] eqn:E; cbn; [|discriminate].
  destruct (mapM enc l) as [js'|]; cbn; [|discriminate]. intros [= <-] j [<-|Hj].
  - exists x. auto.
  - destruct (IH _ eq_refl _ Hj) as (v & H1 & H2). exists v; auto.
Qed.

Lemma wt_unpack v : unp_good v.
Proof.
  induction v as [|b|z|t|l IH|d IH|e t|c d IH] using pval_ind2; (split; [intros u j f Hw He Hd|intros u0 l0 js0 f0 Heq0; try discriminate Heq0]).
  1-4,7: (destruct u; cbn [wt] in Hw; try tauto; destruct (jsonval_lift _ Hw) as (j' & Hj & _);
      rewrite Hj, enc_lift in He; injection He as ->; cbn [apply_unpacker]; now rewrite Hj).
  - destruct u as [|e|c]; cbn [wt] in Hw; try tauto. destruct (jsonval_lift _ Hw) as (j' & Hj & _).
    rewrite Hj, enc_lift in He; injection He as ->; cbn [apply_unpacker]; now rewrite Hj.
  - injection Heq0 as <-. intros Hw. revert js0. induction IH as [|x l Hx IH1 IH2]; intros js Hjs Hd.
    + rewrite mapM_nil in Hjs. injection Hjs as <-. reflexivity.
    + rewrite mapM_cons in Hjs. destruct (enc x) as [jx|] eqn:Ex; cbn in Hjs; [|discriminate].
      destruct (mapM enc l) as [js'|] eqn:El; cbn in Hjs; [|discriminate]. injection Hjs as <-.
      destruct Hw as [Hw1 Hw2]. rewrite mapM_cons.
      rewrite (proj1 Hx u0 jx f0 Hw1 Ex); [|apply Hd; left; auto]. cbn [bind].
      rewrite (IH2 Hw2 js' eq_refl); [reflexivity|]. intros; apply Hd; right; auto.
  - destruct u as [|e'|c]; cbn in Hw; try tauto. destruct Hw as [-> Hin]. cbn in He. injection He as <-.
    cbn. rewrite (proj2 (mem_In t (members e')) Hin). reflexivity.
  - destruct u as [|e'|c']; [cbn in Hw; tauto|cbn in Hw; tauto|].
    apply wt_obj in Hw. destruct Hw as (attrs & Heq & Hc & Hk & Hw). injection Heq as -> <-.
    rewrite Forall_forall in IH.
    destruct (obj_attrs_enc c' d) as (r & Hr & Hrk & Hg & Hwf); auto.
    { intros k x _. apply wt_enc. }
    cbn [enc] in He. change (mapM _ d) with (enc_attrs d) in He. rewrite Hr in He. cbn [bind] in He. unfold pack_attrs in He. rewrite Hc in He.
    rewrite default_pack_ok in He by auto. cbn [bind] in He. injection He as <-.
    destruct f as [|f]; [cbn in Hd; lia|]. cbn [apply_unpacker unpack_obj].
    assert (Hu1 : forall sub j, unpack1 sub c' j = default_unpack sub c' j) by (intros; destruct c'; cbn in Hc; try discriminate; reflexivity).
    rewrite Hu1. unfold default_unpack.
    rewrite (level2_ok (unpack_obj f) c' d r).
    + cbn [bind]. fold (assigns c' d). now apply build_ok.
    + intros g Hgf. apply has_field_key in Hgf. destruct Hgf as (_ & _ & Hgf). now rewrite Hk.
    + intros g fd v Hmp Hv Hfd. destruct (Hg g v Hv) as (j & Hj1 & Hj2 & Hj3 & Hj4).
      assert (Hgj : getj r g = j) by (unfold getj; now rewrite Hj1). rewrite Hgj.
      apply find_field_In in Hfd. destruct Hfd as [Hfd Hfn].
      destruct (Hw g v fd (dget_In _ _ Hv) Hfd Hfn) as [Hwa _]. split.
      * intros ->. cbn in Hj2. congruence.
      * intros Hn. split; auto. eapply wta_unpack; eauto; [apply (IH (g, v) (dget_In _ _ Hv))|].
        assert (jdepth j < jdepth (JObj (map (entryj r) (dapmap c')))); [|lia].
        unfold mapped in Hmp. apply in_flat_map in Hmp. destruct Hmp as ([k e] & Hin & Hgin).
        pose proof (entry_ok _ _ Hin) as Heb. unfold entryb in Heb. cbn [fst snd] in *. rewrite !andb_true_iff in Heb.
        destruct Heb as [_ Heb]. destruct e as [g'|m].
        -- cbn in Hgin. destruct Hgin as [->|[]]. apply jdepth_In_obj with k. apply in_map_iff. exists (k, MF g).
           split; auto. unfold entryj. cbn [fst snd]. now rewrite Hgj.
        -- cbn [entry_fields] in Hgin. apply in_flat_map in Hgin. destruct Hgin as ([k2 e2] & Hin2 & Hg2).
           rewrite andb_true_iff in Heb. destruct Heb as [Heb _]. rewrite forallb_forall in Heb. specialize (Heb _ Hin2).
           unfold leafb in Heb. cbn [fst snd] in *. destruct e2 as [g2|]; [|rewrite andb_false_r in Heb; discriminate].
           cbn in Hg2. destruct Hg2 as [->|[]].
           apply Nat.lt_trans with (jdepth (JObj (map (leafj r) m))).
           ++ apply jdepth_In_obj with k2. apply in_map_iff. exists (k2, MF g). split; auto.
              unfold leafj. cbn [fst snd]. now rewrite Hgj.
           ++ apply jdepth_In_obj with k. apply in_map_iff. exists (k, MN m). split; auto.
Qed.
