From Verif Require Import PyBase PyDict JsonModel JsonProofs MsgBase MsgTables MsgModel MsgSpec MsgProofs.
From Coq Require Import ZifyBool ZifyNat ZifyN.

(** * Whole messages on the wire (C07) *)
Lemma dget_entryj r m k : dget (map (entryj r) m) k =
  match dget m k with Some (MF f) => Some (getj r f) | Some (MN m') => Some (JObj (map (leafj r) m')) | None => None end.
Proof.
  induction m as [|[k' e] m IH]; [reflexivity|]. cbn [map entryj dget fst snd].
  destruct (eqb k' k); [destruct e; reflexivity|exact IH].
Qed.

Lemma wt_obj_enc c v : wt (UObj c) v -> exists r, enc v = Ok (JObj (map (entryj r) (dapmap c))) /\
  wfj (JObj (map (entryj r) (dapmap c))) /\
  (forall f x, attr v f = Some x -> exists j, enc x = Ok j /\ getj r (s f) = j).
Proof.
  intros Hw0. pose proof Hw0 as Hw.
  apply wt_obj in Hw. destruct Hw as (attrs & -> & Hc & Hk & Hw).
  destruct (obj_attrs_enc c attrs) as (r & Hr & Hrk & Hg & Hwf); auto.
  { intros k x _. apply wt_enc. }
  exists r. cbn [enc]. change (mapM _ attrs) with (enc_attrs attrs). rewrite Hr. cbn [bind]. unfold pack_attrs. rewrite Hc.
  rewrite default_pack_ok by auto. cbn [bind]. split; auto. split; [now apply map_entryj_wf|].
  intros f x Hx. cbn [attr] in Hx. destruct (Hg _ _ Hx) as (j & H1 & H2 & _). exists j. split; auto.
  unfold getj. now rewrite H1.
Qed.

Definition type_cmd_ok (kind : mtype) (tc : pystr * cid) : bool :=
  match dget (dapmap (snd tc)) (s "type") with Some (MF f) => eqb f (s "message_type") | _ => false end &&
  match kind with
  | MReq => match dget (dapmap (snd tc)) (s "command") with Some (MF f) => eqb f (s "command") | _ => false end
  | MResp => match dget (dapmap (snd tc)) (s "command") with Some (MF f) => eqb f (s "command") | _ => false end &&
             match dget (dapmap (snd tc)) (s "success") with Some (MF f) => eqb f (s "success") | _ => false end
  | MEvt => match dget (dapmap (snd tc)) (s "event") with Some (MF f) => eqb f (s "event") | _ => false end
  end.
Definition reg_of (kind : mtype) := match kind with MReq => reg_request | MResp => reg_response | MEvt => reg_event end.
Lemma reg_ok kind : forallb (type_cmd_ok kind) (reg_of kind) = true.
Proof. destruct kind; vm_compute; reflexivity. Qed.
Lemma reg_nodup kind : NoDup (map fst (reg_of kind)).
Proof. apply nodupb_NoDup. destruct kind; vm_compute; reflexivity. Qed.
Lemma reg_entry kind t c : In (t, c) (reg_of kind) -> type_cmd_ok kind (t, c) = true.
Proof. pose proof (reg_ok kind) as H. rewrite forallb_forall in H. auto. Qed.
Lemma reg_dget kind t c : In (t, c) (reg_of kind) -> dget (reg_of kind) t = Some c.
Proof. intros H. apply In_dget; auto. apply reg_nodup. Qed.

Lemma mf_get r m k f : match dget m (s k) with Some (MF f') => eqb f' f | _ => false end = true ->
  getitem (map (entryj r) m) (s k) = Ok (getj r f).
Proof.
  intros H. unfold getitem. rewrite dget_entryj. destruct (dget m (s k)) as [[f'|]|]; try discriminate.
  apply eqb_eq in H. now subst.
Qed.

Lemma cls_unpack_wt c v j : wt (UObj c) v -> enc v = Ok j -> cls_unpack c j = Ok v.
Proof.
  intros Hw He. unfold cls_unpack. exact (proj1 (wt_unpack v) (UObj c) j (S (jdepth j)) Hw He ltac:(lia)).
Qed.

Lemma msg_roundtrip c kind v : msg_of c kind v ->
  exists j, enc v = Ok j /\ wfj j /\ unpack_msg j = Ok v.
Proof.
  intros [Hw Hk]. destruct (wt_obj_enc c v Hw) as (r & He & Hwf & Hg).
  eexists; split; [exact He|]. split; [exact Hwf|].
  pose proof (cls_unpack_wt _ _ _ Hw He) as Hcu.
  cbn [unpack_msg].
  destruct kind.
  - destruct Hk as [Hty (t & Ht & Hin)]. pose proof (reg_entry MReq _ _ Hin) as Hr.
    unfold type_cmd_ok in Hr. cbn [snd] in Hr. rewrite andb_true_iff in Hr. destruct Hr as [H1 H2].
    destruct (Hg _ _ Hty) as (jt & Ejt & Gjt). cbn in Ejt. injection Ejt as <-.
    destruct (Hg _ _ Ht) as (jc & Ejc & Gjc). cbn in Ejc. injection Ejc as <-.
    rewrite (mf_get r _ _ _ H1), Gjt. cbn [bind].
    change (reg_get registry (JStr (s "request"))) with (@Ok (option mtype) (Some MReq)). cbn [bind].
    rewrite (mf_get r _ _ _ H2), Gjc. cbn [bind reg_get]. pose proof (reg_dget MReq _ _ Hin) as Hd; cbn [reg_of] in Hd; rewrite Hd. exact Hcu.
  - destruct Hk as [Hty Hcases].
    assert (Hin : exists t0, In (t0, c) reg_response).
    { destruct Hcases as [(_ & t & _ & H)|(_ & ->)]; eauto. exists (s "error"). vm_compute; tauto. }
    destruct Hin as (t0 & Hin0). pose proof (reg_entry MResp _ _ Hin0) as Hr.
    unfold type_cmd_ok in Hr. cbn [snd] in Hr. rewrite !andb_true_iff in Hr. destruct Hr as [H1 [H2 H3]].
    destruct (Hg _ _ Hty) as (jt & Ejt & Gjt). cbn in Ejt. injection Ejt as <-.
    rewrite (mf_get r _ _ _ H1), Gjt. cbn [bind].
    change (reg_get registry (JStr (s "response"))) with (@Ok (option mtype) (Some MResp)). cbn [bind].
    rewrite (mf_get r _ _ _ H2), (mf_get r _ _ _ H3). cbn [bind].
    destruct Hcases as [(Hs & t & Ht & Hin)|(Hs & ->)].
    + destruct (Hg _ _ Hs) as (js & Ejs & Gjs). cbn in Ejs. injection Ejs as <-. rewrite Gjs. cbn [truthy].
      destruct (Hg _ _ Ht) as (jc & Ejc & Gjc). cbn in Ejc. injection Ejc as <-. rewrite Gjc.
      cbn [bind reg_get]. pose proof (reg_dget MResp _ _ Hin) as Hd; cbn [reg_of] in Hd; rewrite Hd. exact Hcu.
    + destruct (Hg _ _ Hs) as (js & Ejs & Gjs). cbn in Ejs. injection Ejs as <-. rewrite Gjs. cbn [truthy].
      cbn [reg_get]. change (dget reg_response (s "error")) with (Some C_ErrorResponse). exact Hcu.
  - destruct Hk as [Hty (t & Ht & Hin)]. pose proof (reg_entry MEvt _ _ Hin) as Hr.
    unfold type_cmd_ok in Hr. cbn [snd] in Hr. rewrite andb_true_iff in Hr. destruct Hr as [H1 H2].
    destruct (Hg _ _ Hty) as (jt & Ejt & Gjt). cbn in Ejt. injection Ejt as <-.
    destruct (Hg _ _ Ht) as (jc & Ejc & Gjc). cbn in Ejc. injection Ejc as <-.
    rewrite (mf_get r _ _ _ H1), Gjt. cbn [bind].
    change (reg_get registry (JStr (s "event"))) with (@Ok (option mtype) (Some MEvt)). cbn [bind].
    rewrite (mf_get r _ _ _ H2), Gjc. cbn [bind reg_get]. pose proof (reg_dget MEvt _ _ Hin) as Hd; cbn [reg_of] in Hd; rewrite Hd. exact Hcu.
Qed.

(** launch / attach *)
Lemma dmerge_fresh {V} (a b : list (pystr * V)) :
  NoDup (map fst b) -> (forall k, In k (map fst b) -> ~ In k (map fst a)) -> dmerge a b = a ++ b.
Proof.
  revert a. induction b as [|[k v] b IH]; intros a Hnd Hd; cbn [dmerge fold_left].
  - now rewrite app_nil_r.
  - cbn [fst snd]. inversion Hnd; subst. rewrite dset_fresh by (apply Hd; left; auto).
    fold (dmerge (a ++ [(k, v)]) b). rewrite IH; auto.
    + now rewrite <- app_assoc.
    + intros k' Hk' Hin. rewrite map_app, in_app_iff in Hin. destruct Hin as [Hin|[Hin|[]]].
      * eapply Hd; [right; exact Hk'|exact Hin].
      * cbn in Hin. subst k'. tauto.
Qed.

Lemma lift_dict js : lift (JObj js) = PDict (map (fun kv => (fst kv, lift (snd kv))) js).
Proof. reflexivity. Qed.

Lemma jsonval_dict args : jsonval (PDict args) -> exists js, PDict args = lift (JObj js) /\ wfj (JObj js) /\ map fst js = map fst args.
Proof.
  intros H. apply jsonval_lift in H. destruct H as (j & Hj & Hw). destruct j; cbn in Hj; try discriminate.
  injection Hj as ->. exists d. split; auto. split; auto. rewrite map_map. reflexivity.
Qed.

Lemma enc_obj_list c l r : enc_attrs l = Ok r -> enc (PObj c l) = do d <- pack_attrs c r; Ok (JObj d).
Proof. intros H. cbn [enc]. change (mapM _ l) with (enc_attrs l). rewrite H. reflexivity. Qed.

Lemma ddel_app_fresh {V} (k : pystr) (v : V) l : ddel ((k, v) :: l) k = l.
Proof. cbn [ddel]. now rewrite eqb_refl. Qed.

Lemma wfj_obj_inv d : wfj (JObj d) -> NoDup (map fst d) /\ (forall k v, In (k, v) d -> Forall scalar k /\ wfj v).
Proof.
  cbn. intros [Hnd H]. split; auto. clear Hnd. induction d as [|[k v] d IH]; cbn in *; [tauto|].
  destruct H as (H1 & H2 & H3). intros k' v' [Heq|Hin]; [injection Heq as <- <-; auto|]. now apply IH.
Qed.

Ltac scalar_lit := apply asciib_scalar; vm_compute; reflexivity.


(** What attach/launch unpack from any JSON object naming them (also used for C11). *)
Lemma attach_unpack_msg d a q :
  dget d (s "type") = Some (JStr (s "request")) -> dget d (s "command") = Some (JStr (s "attach")) ->
  dget d (s "arguments") = Some (JObj a) -> dget d (s "seq") = Some q ->
  unpack_msg (JObj d) = Ok (PObj C_AttachRequest
    [(s "seq", lift q); (s "message_type", PEnum E_MessageType (s "request")); (s "command", PEnum E_Command (s "attach"));
     (s "arguments", lift (JObj (ddel a (s "__restart"))));
     (s "restart", lift (match dget a (s "__restart") with Some v => v | None => JNull end))]).
Proof.
  intros H1 H2 H3 H4. cbn [unpack_msg]. unfold getitem. rewrite H1. cbn [bind].
  change (reg_get registry (JStr (s "request"))) with (@Ok (option mtype) (Some MReq)). cbn [bind]. rewrite H2. cbn [bind].
  change (reg_get reg_request (JStr (s "attach"))) with (@Ok (option cid) (Some C_AttachRequest)). cbn [bind].
  unfold cls_unpack. cbn [unpack_obj unpack1 attach_unpack]. unfold getitem. rewrite H3. cbn [bind].
  unfold pop_default. rewrite H4. cbn [bind]. reflexivity.
Qed.
Lemma launch_unpack_msg d a q :
  dget d (s "type") = Some (JStr (s "request")) -> dget d (s "command") = Some (JStr (s "launch")) ->
  dget d (s "arguments") = Some (JObj a) -> dget d (s "seq") = Some q ->
  unpack_msg (JObj d) = Ok (PObj C_LaunchRequest
    [(s "seq", lift q); (s "message_type", PEnum E_MessageType (s "request")); (s "command", PEnum E_Command (s "launch"));
     (s "arguments", lift (JObj (ddel (ddel a (s "noDebug")) (s "__restart"))));
     (s "no_debug", lift (match dget a (s "noDebug") with Some v => v | None => JBool false end));
     (s "restart", lift (match dget (ddel a (s "noDebug")) (s "__restart") with Some v => v | None => JNull end))]).
Proof.
  intros H1 H2 H3 H4. cbn [unpack_msg]. unfold getitem. rewrite H1. cbn [bind].
  change (reg_get registry (JStr (s "request"))) with (@Ok (option mtype) (Some MReq)). cbn [bind]. rewrite H2. cbn [bind].
  change (reg_get reg_request (JStr (s "launch"))) with (@Ok (option cid) (Some C_LaunchRequest)). cbn [bind].
  unfold cls_unpack. cbn [unpack_obj unpack1 launch_unpack]. unfold getitem. rewrite H3. cbn [bind].
  unfold pop_default. rewrite H4. cbn [bind]. reflexivity.
Qed.

Lemma attach_pack jseq ja jr :
  pack_attrs C_AttachRequest [(s "seq", jseq); (s "message_type", JStr (s "request")); (s "command", JStr (s "attach"));
    (s "arguments", JObj ja); (s "restart", jr)]
  = Ok [(s "seq", jseq); (s "type", JStr (s "request")); (s "command", JStr (s "attach"));
        (s "arguments", JObj (dmerge [(s "__restart", jr)] ja))].
Proof. reflexivity. Qed.
Lemma launch_pack jseq ja jn jr :
  pack_attrs C_LaunchRequest [(s "seq", jseq); (s "message_type", JStr (s "request")); (s "command", JStr (s "launch"));
    (s "arguments", JObj ja); (s "no_debug", jn); (s "restart", jr)]
  = Ok [(s "seq", jseq); (s "type", JStr (s "request")); (s "command", JStr (s "launch"));
        (s "arguments", JObj (dmerge [(s "noDebug", jn); (s "__restart", jr)] ja))].
Proof. reflexivity. Qed.

Ltac nodup_lit := apply nodupb_NoDup; vm_compute; reflexivity.

Lemma launch_roundtrip c v : launch_of c v ->
  exists j, enc v = Ok j /\ wfj j /\ unpack_msg j = Ok v.
Proof.
  intros [H|H].
  - destruct H as (seq & args & restart & -> & Hseq & Hargs & Hrest & Hnr & ->).
    destruct (jsonval_lift _ Hseq) as (jseq & -> & Wseq). destruct (jsonval_lift _ Hrest) as (jr & -> & Wr).
    destruct (jsonval_dict _ Hargs) as (ja & Ha & Wa & Hka). rewrite Ha.
    apply wfj_obj_inv in Wa. destruct Wa as [Wa1 Wa2].
    erewrite enc_obj_list; [|unfold enc_attrs; repeat (rewrite mapM_cons; cbn [fst snd]; rewrite ?enc_lift; cbn [enc bind]); rewrite mapM_nil; reflexivity].
    rewrite attach_pack. cbn [bind].
    rewrite (dmerge_fresh [(s "__restart", jr)] ja) by
      (first [congruence|intros k Hk [Hin|[]]; cbn [fst] in Hin; subst k; apply Hnr; congruence]).
    cbn [app].
    eexists; split; [reflexivity|]. split.
    + apply wfj_obj; [nodup_lit|]. intros k v [E|[E|[E|[E|[]]]]]; injection E as <- <-; (split; [scalar_lit|]); cbn [wfj]; auto; try scalar_lit.
      apply wfj_obj.
      * cbn [map fst]. constructor; [rewrite Hka; exact Hnr|exact Wa1].
      * intros k v [E|Hin]; [injection E as <- <-; split; [scalar_lit|exact Wr]|now apply Wa2].
    + erewrite attach_unpack_msg; [|reflexivity..]. rewrite ddel_app_fresh. cbn [dget]. rewrite eqb_refl. reflexivity.
  - destruct H as (seq & args & nodebug & restart & -> & Hseq & Hargs & Hnd & Hrest & Hnr & Hnn & ->).
    destruct (jsonval_lift _ Hseq) as (jseq & -> & Wseq). destruct (jsonval_lift _ Hrest) as (jr & -> & Wr).
    destruct (jsonval_lift _ Hnd) as (jn & -> & Wn).
    destruct (jsonval_dict _ Hargs) as (ja & Ha & Wa & Hka). rewrite Ha.
    apply wfj_obj_inv in Wa. destruct Wa as [Wa1 Wa2].
    erewrite enc_obj_list; [|unfold enc_attrs; repeat (rewrite mapM_cons; cbn [fst snd]; rewrite ?enc_lift; cbn [enc bind]); rewrite mapM_nil; reflexivity].
    rewrite launch_pack. cbn [bind].
    rewrite (dmerge_fresh [(s "noDebug", jn); (s "__restart", jr)] ja) by
      (first [congruence|intros k Hk [Hin|[Hin|[]]]; cbn [fst] in Hin; subst k; [apply Hnn|apply Hnr]; congruence]).
    cbn [app].
    eexists; split; [reflexivity|]. split.
    + apply wfj_obj; [nodup_lit|]. intros k v [E|[E|[E|[E|[]]]]]; injection E as <- <-; (split; [scalar_lit|]); cbn [wfj]; auto; try scalar_lit.
      apply wfj_obj.
      * cbn [map fst]. constructor; [intros [E|E]; [discriminate|rewrite Hka in E; auto]|constructor; [rewrite Hka; exact Hnr|exact Wa1]].
      * intros k v [E|[E|Hin]]; [injection E as <- <-; split; [scalar_lit|auto]..|now apply Wa2].
    + erewrite launch_unpack_msg; [|reflexivity..]. rewrite !ddel_app_fresh. cbn [dget]. rewrite eqb_refl.
      reflexivity.
Qed.
