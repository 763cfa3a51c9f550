(** The JSON members of a packed object, in terms of its attributes. *)
From Verif Require Import PyBase PyDict JsonModel JsonProofs MsgBase MsgTables MsgModel MsgSpec MsgProofs MsgProofs2 DbgTypes WireSpec WireProofs OutModel.

Lemma dget_map_snd {B C} (g : pystr * B -> C) (m : list (pystr * B)) k :
  dget (map (fun ke => (fst ke, g ke)) m) k = match dget m k with Some e => Some (g (k, e)) | None => None end.
Proof.
  induction m as [|[k' e] m IH]; [reflexivity|]. cbn [map fst dget]. destruct (eqb k' k) eqn:E; [apply eqb_eq in E as ->; rewrite ?eqb_refl; reflexivity|rewrite ?E; exact IH].
Qed.
(** tables have depth at most two *)
Definition flatb (e : mentry) : bool :=
  match e with MF _ => true | MN m => forallb (fun ke => match snd ke with MF _ => true | MN _ => false end) m end.
Lemma tables_flat c : forallb (fun ke => flatb (snd ke)) (dapmap c) = true.
Proof. destruct c; vm_compute; reflexivity. Qed.

Lemma packed_at c r p f : In (p, f) (entry_paths (MN (dapmap c))) -> at_ (JObj (map (entryj r) (dapmap c))) p = getj r f.
Proof.
  intros Hin. pose proof (tables_wf c) as Hwf. cbn [mwf] in Hwf. apply andb_true_iff in Hwf as [Hnd Hsub].
  apply ndb_NoDup in Hnd. destruct p as [|k p]; [destruct (paths_nil _ _ Hin)|].
  apply paths_MN in Hin; [|exact Hnd]. destruct Hin as (e & He & Hp). cbn [at_].
  unfold entryj. rewrite (dget_map_snd (fun ke => match snd ke with MF f => getj r f | MN m => JObj (map (leafj r) m) end)). rewrite He. cbn [snd].
  pose proof (tables_flat c) as Hf. rewrite forallb_forall in Hf. specialize (Hf _ (dget_In _ _ He)). cbn [snd] in Hf.
  rewrite forallb_forall in Hsub. specialize (Hsub _ (dget_In _ _ He)). cbn [snd] in Hsub.
  destruct e as [g|m].
  - cbn [entry_paths In] in Hp. destruct Hp as [E|[]]. injection E as <- <-. reflexivity.
  - cbn [mwf] in Hsub. apply andb_true_iff in Hsub as [Hnd' _]. apply ndb_NoDup in Hnd'.
    destruct p as [|k' p]; [destruct (paths_nil _ _ Hp)|]. apply paths_MN in Hp; [|exact Hnd']. destruct Hp as (e' & He' & Hp').
    cbn [flatb] in Hf. rewrite forallb_forall in Hf. specialize (Hf _ (dget_In _ _ He')). cbn [snd] in Hf. destruct e' as [g|]; [|discriminate].
    cbn [entry_paths In] in Hp'. destruct Hp' as [E|[]]. injection E as <- <-. cbn [at_].
    unfold leafj. rewrite (dget_map_snd (fun ke => match snd ke with MF f => getj r f | MN m => JNull end)). rewrite He'. reflexivity.
Qed.

(** the members of the JSON of a well-typed object *)
Lemma enc_members c attrs : wt (UObj c) (PObj c attrs) ->
  exists j, enc (PObj c attrs) = Ok j /\ wfj j /\
    forall p f x, In (p, f) (entry_paths (MN (dapmap c))) -> dget attrs f = Some x -> enc x = Ok (at_ j p).
Proof.
  intros Hw. apply wt_obj in Hw. destruct Hw as (attrs' & E & Hc & Hk & Hw). injection E as <-.
  destruct (obj_attrs_enc c attrs) as (r & Hr & Hrk & Hg & Hwf); auto. { intros k x _. apply wt_enc. }
  exists (JObj (map (entryj r) (dapmap c))). cbn [enc]. change (mapM _ attrs) with (enc_attrs attrs). rewrite Hr. cbn [bind].
  unfold pack_attrs. rewrite Hc. rewrite default_pack_ok by auto. cbn [bind]. split; [reflexivity|]. split; [now apply map_entryj_wf|].
  intros p f x Hp Hx. rewrite (packed_at c r p f Hp). destruct (Hg _ _ Hx) as (j & Hj & He & _). unfold getj. rewrite Hj. exact He.
Qed.

(** ** constructor calls *)
Definition dflt_okb (c : cid) (fd : field) : bool :=
  match fdef fd with
  | FReq | FUnset => true
  | FDef PNull => true
  | FDef (PBool _) | FDef (PInt _) => match funp fd with UId => true | _ => false end
  | FDef (PStr t) => match funp fd with UId => asciib t | _ => false end
  | FDef (PList []) => true
  | FDef (PDict []) => match funp fd with UId => true | _ => false end
  | FDef (PEnum e t) => match funp fd with UEnum e' => (match e, e' with E_MessageType, E_MessageType | E_Command, E_Command | E_EventType, E_EventType | E_StoppedReason, E_StoppedReason => true | _, _ => false end) && mem t (members e) | _ => false end
  | _ => false
  end.
Lemma defaults_ok c : custom c = false -> forallb (dflt_okb c) (fields c) = true.
Proof. destruct c; intros H; try discriminate H; vm_compute; reflexivity. Qed.
Lemma dflt_wta c fd v : dflt_okb c fd = true -> fdef fd = FDef v -> wta fd v.
Proof.
  unfold dflt_okb. intros H E. rewrite E in H. destruct v as [|b|z|t|[|? ?]|[|? ?]|e t|c' d]; try discriminate H; cbn [wta].
  - exact E.
  - destruct (funp fd); try discriminate; exact I.
  - destruct (funp fd); try discriminate; exact I.
  - destruct (funp fd); try discriminate. cbn. now apply asciib_scalar.
  - exact I.
  - destruct (funp fd); try discriminate. cbn. split; constructor.
  - destruct (funp fd) as [|e'|]; try discriminate. apply andb_true_iff in H as [H1 H2]. apply mem_In in H2.
    destruct e, e'; try discriminate; cbn [wt]; auto.
Qed.
Lemma fields_nd c : NoDup (map fname (fields c)).
Proof. apply ndb_NoDup. destruct c; vm_compute; reflexivity. Qed.

Lemma NoDup_map_inj {A B} (f : A -> B) l x y : NoDup (map f l) -> In x l -> In y l -> f x = f y -> x = y.
Proof.
  induction l as [|a l IH]; intros N Hx Hy E; [destruct Hx|]. cbn [map] in N. apply NoDup_cons_iff in N as [N1 N2].
  destruct Hx as [->|Hx], Hy as [->|Hy]; auto.
  - exfalso. apply N1. rewrite E. now apply in_map.
  - exfalso. apply N1. rewrite <- E. now apply in_map.
Qed.

Definition req_given (c : cid) (kvs : list (pystr * pval)) : bool :=
  forallb (fun fd => match fdef fd with FDef _ => true | _ => mem (fname fd) (map fst kvs) end) (fields c).
Definition only_mapped (c : cid) (kvs : list (pystr * pval)) : bool :=
  forallb (fun k => mem k (flat_map (fun ke => entry_fields (snd ke)) (dapmap c))) (map fst kvs).
Lemma mk_wt c kvs : custom c = false -> req_given c kvs = true -> only_mapped c kvs = true ->
  (forall fd v, In fd (fields c) -> dget kvs (fname fd) = Some v -> wta fd v) -> wt (UObj c) (mk c kvs).
Proof.
  intros Hc Hr Hm Hv. apply wt_obj. eexists. split; [reflexivity|]. split; [exact Hc|]. split; [now rewrite map_map|].
  intros k x fd Hin Hfd Hn. apply in_map_iff in Hin as (fd' & E & Hfd'). injection E as <- <-.
  assert (fd' = fd) by (eapply (NoDup_map_inj fname); eauto using fields_nd). subst fd'.
  unfold fval. destruct (dget kvs (fname fd)) as [v|] eqn:Ev.
  - split; [eauto|]. intros Hn'. exfalso. apply Hn'. unfold mapped. unfold only_mapped in Hm. rewrite forallb_forall in Hm.
    apply mem_In. apply Hm. apply dget_In in Ev. apply (in_map fst) in Ev. exact Ev.
  - unfold req_given in Hr. rewrite forallb_forall in Hr. specialize (Hr _ Hfd).
    destruct (fdef fd) as [|v|] eqn:Ed.
    2:{ split; [|auto]. eapply dflt_wta; eauto. pose proof (defaults_ok c Hc) as Hd. rewrite forallb_forall in Hd. auto. }
    all: exfalso; apply mem_In in Hr; destruct (dget_key_ex _ _ Hr) as (v & Hv'); rewrite Ev in Hv'; discriminate.
Qed.

(** arrays *)
Lemma enc_arr {A} (f : A -> pval) l j : enc (PList (map f l)) = Ok j -> exists js, j = JArr js /\ Forall2 (fun j x => enc (f x) = Ok j) js l.
Proof.
  cbn [enc]. destruct (mapM enc (map f l)) as [js|] eqn:E; [|discriminate]. cbn [bind]. intros H. injection H as <-. exists js. split; [reflexivity|].
  revert js E. induction l as [|x l IH]; intros js E; cbn [map] in E; [rewrite mapM_nil in E; injection E as <-; constructor|]; rewrite mapM_cons in E.
  destruct (enc (f x)) as [a|] eqn:Ex; [|discriminate]. cbn [bind] in E. destruct (mapM enc (map f l)) as [js'|]; [|discriminate]. cbn [bind] in E.
  injection E as <-. constructor; auto.
Qed.
Lemma wta_list_map {A} fd (f : A -> pval) l : (forall x, In x l -> wt (funp fd) (f x)) -> wta fd (PList (map f l)).
Proof. intros H. cbn [wta]. induction l as [|x l IH]; cbn; auto. split; [apply H; now left|]. apply IH. intros y Hy. apply H. now right. Qed.

Lemma wt_list_map {A} u (f : A -> pval) l : (forall x, In x l -> wt u (f x)) -> fold_right (fun x Q => wt u x /\ Q) True (map f l).
Proof. intros H. induction l as [|x l IH]; cbn; auto. split; [apply H; now left|]. apply IH. intros y Hy. apply H. now right. Qed.

Definition arg_ok (c : cid) (kv : pystr * pval) : Prop :=
  match find_field c (fst kv) with Some fd => wta fd (snd kv) | None => True end.
Lemma find_field_In c fd : In fd (fields c) -> find_field c (fname fd) = Some fd.
Proof.
  intros H. unfold find_field. pose proof (fields_nd c) as N. induction (fields c) as [|g l IH]; [destruct H|].
  cbn [find]. destruct (eqb (fname g) (fname fd)) eqn:E.
  - apply eqb_eq in E. f_equal. eapply (NoDup_map_inj fname); eauto. now left.
  - destruct H as [->|H]; [rewrite eqb_refl in E; discriminate|]. cbn [map] in N. apply NoDup_cons_iff in N as [_ N]. auto.
Qed.
Lemma mk_good c kvs : custom c = false -> req_given c kvs = true -> only_mapped c kvs = true -> Forall (arg_ok c) kvs -> wt (UObj c) (mk c kvs).
Proof.
  intros Hc Hr Hm Ha. apply mk_wt; auto. intros fd v Hfd Hv. rewrite Forall_forall in Ha. specialize (Ha _ (dget_In _ _ Hv)).
  unfold arg_ok in Ha. cbn [fst snd] in Ha. rewrite (find_field_In _ _ Hfd) in Ha. exact Ha.
Qed.
(** the members of a constructed object *)
Lemma mk_members c kvs : wt (UObj c) (mk c kvs) ->
  exists j, enc (mk c kvs) = Ok j /\ wfj j /\
    forall p fd, In (p, fname fd) (entry_paths (MN (dapmap c))) -> In fd (fields c) -> enc (fval kvs fd) = Ok (at_ j p).
Proof.
  intros H. destruct (enc_members c _ H) as (j & H1 & H2 & H3). exists j. split; [exact H1|]. split; [exact H2|].
  intros p fd Hp Hfd. eapply H3; eauto. apply In_dget; [unfold dkeys; rewrite map_map; apply fields_nd|]. apply in_map_iff. exists fd. auto.
Qed.
(** in a form that computes *)
Definition path_field (c : cid) (p : list pystr) : option pystr :=
  match find (fun pf => eqb (fst pf) p) (entry_paths (MN (dapmap c))) with Some pf => Some (snd pf) | None => None end.
Definition path_val (c : cid) (kvs : list (pystr * pval)) (p : list pystr) : option pval :=
  match path_field c p with Some f => match find_field c f with Some fd => Some (fval kvs fd) | None => None end | None => None end.
Lemma path_val_ok c kvs j : wt (UObj c) (mk c kvs) -> enc (mk c kvs) = Ok j -> forall p x, path_val c kvs p = Some x -> enc x = Ok (at_ j p).
Proof.
  intros H E p x Hp. destruct (mk_members c kvs H) as (j' & H1 & _ & H3). rewrite E in H1. injection H1 as <-.
  unfold path_val, path_field in Hp. destruct (find _ (entry_paths _)) as [[p' f]|] eqn:Ef; [|discriminate].
  apply find_some in Ef as [Hin Heq]. cbn [fst snd] in *. apply eqb_eq in Heq. subst p'.
  unfold find_field in Hp. destruct (find _ (fields c)) as [fd|] eqn:Eg; [|discriminate]. injection Hp as <-.
  apply find_some in Eg as [Hfd Hn]. apply eqb_eq in Hn. subst f. eauto.
Qed.
