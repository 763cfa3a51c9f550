(** C65: a request acts as its JSON members say. *)
From Verif Require Import PyBase PyDict JsonModel JsonSpec JsonProofs JsonGrammar MsgBase MsgTables MsgModel MsgSpec MsgProofs MsgProofs2 MsgProofs3 MsgProofs4 DbgTypes WireSpec WireModel WireProofs.
Set Implicit Arguments.

Section C65.
Variable code : pval -> N.

Lemma member_dget d k v : member (JObj d) k = v -> v <> JNull -> dget d (s k) = Some v.
Proof. unfold member. cbn [at_]. destruct (dget d (s k)); congruence. Qed.

(** the class chosen for a request *)
Lemma request_class j cmd c v : called j cmd -> unpack_msg j = Ok v -> dget reg_request (s cmd) = Some c -> cls_unpack c j = Ok v.
Proof.
  intros [Ht Hc] H Hr. destruct j as [| | | | |d]; try discriminate.
  apply member_dget in Ht; [|discriminate]. apply member_dget in Hc; [|discriminate].
  cbn [unpack_msg] in H. unfold getitem in H. rewrite Ht in H. cbn [bind] in H.
  change (reg_get registry (JStr (s "request"))) with (@Ok (option mtype) (Some MReq)) in H. cbn [bind] in H. rewrite Hc in H. cbn [bind reg_get] in H.
  rewrite Hr in H. exact H.
Qed.

Lemma rd_id_num v n : v = Some (PInt (Z.of_N n)) -> rd_id v = Some n.
Proof. intros ->. cbn [rd_id]. rewrite (proj2 (Z.leb_le 0 (Z.of_N n)) (N2Z.is_nonneg n)). now rewrite N2Z.id. Qed.

(** attribute [f] of class [c] is the plain value of the member at [p]; [x] when that is missing or null *)
Definition reads (c : cid) (f : String.string) (p : list pystr) (x : fdefault) : Prop :=
  exists fd, find_field c (s f) = Some fd /\ funp fd = UId /\ from c (s f) = [p] /\ fdef fd = x.
Lemma read c f p x j v fu : reads c f p x -> unpack_obj (S fu) c j = Ok v -> custom c = false -> keys_ok j -> top_ok j ->
  (x = FReq -> at_ j p <> JNull) ->
  attr v f = Some (if is_null (at_ j p) then match x with FDef y => y | _ => PNull end else lift (at_ j p)).
Proof.
  intros (fd & Hf & Hu & Hp & Hx) Hv Hc Hk Ht Hreq.
  destruct (@attr_plain _ c j v f p fd Hv Hc Hk Ht Hf Hu) as [H1 H2].
  { rewrite Hp. left; auto. }
  { rewrite Hp. intros p0 [<-|[]] E. exfalso. apply E. reflexivity. }
  destruct (is_null (at_ j p)) eqn:En.
  - destruct H2 as (y & Hy & Ha); [destruct (at_ j p); auto; discriminate|]. rewrite Ha, <- Hx, Hy. reflexivity.
  - apply H1. intros E. rewrite E in En. discriminate.
Qed.
Arguments read {c f p x j v fu}.
Ltac onefrom := intros p' Hp' Hne; vm_compute in Hp'; repeat (destruct Hp' as [<-|Hp']; [exfalso; apply Hne; reflexivity|]); destruct Hp'.
Ltac tbl := eexists; repeat split; vm_compute; reflexivity.

Lemma read_num c f p x j v n fu : reads c f p x -> unpack_obj (S fu) c j = Ok v -> custom c = false -> keys_ok j -> top_ok j ->
  num (at_ j p) n -> rd_id (attr v f) = Some n.
Proof. unfold num. intros R Hv Hc Hk Ht Hn. apply rd_id_num. rewrite (read R Hv Hc Hk Ht) by (intros _; rewrite Hn; discriminate). rewrite Hn. reflexivity. Qed.
Lemma read_num_opt c f p j v o fu : reads c f p (FDef PNull) -> unpack_obj (S fu) c j = Ok v -> custom c = false -> keys_ok j -> top_ok j ->
  num_opt (at_ j p) o -> rd_id_opt (attr v f) = Some o.
Proof.
  intros R Hv Hc Hk Ht Hn. rewrite (read R Hv Hc Hk Ht) by discriminate. destruct Hn as [[-> ->]|(n & -> & ->)]; cbn [is_null lift]; [reflexivity|].
  unfold rd_id_opt. now rewrite (@rd_id_num _ n eq_refl).
Qed.
Lemma read_text c f p x j v t fu : reads c f p x -> unpack_obj (S fu) c j = Ok v -> custom c = false -> keys_ok j -> top_ok j ->
  text (at_ j p) t -> rd_str (attr v f) = Some t.
Proof. unfold text. intros R Hv Hc Hk Ht Hn. rewrite (read R Hv Hc Hk Ht) by (intros _; rewrite Hn; discriminate). rewrite Hn. reflexivity. Qed.
Lemma read_text_opt c f p j v o fu : reads c f p (FDef PNull) -> unpack_obj (S fu) c j = Ok v -> custom c = false -> keys_ok j -> top_ok j ->
  text_opt (at_ j p) o -> rd_str_opt (attr v f) = Some o.
Proof. intros R Hv Hc Hk Ht Hn. rewrite (read R Hv Hc Hk Ht) by discriminate. destruct Hn as [[-> ->]|(n & -> & ->)]; reflexivity. Qed.
Lemma read_flag c f p d j v b fu : reads c f p (FDef (PBool d)) -> unpack_obj (S fu) c j = Ok v -> custom c = false -> keys_ok j -> top_ok j ->
  flag d (at_ j p) b -> rd_flag (attr v f) = Some b.
Proof. intros R Hv Hc Hk Ht Hn. rewrite (read R Hv Hc Hk Ht) by discriminate. destruct Hn as [->|[-> ->]]; reflexivity. Qed.
Lemma read_flag_opt c f p j v b fu : reads c f p (FDef PNull) -> unpack_obj (S fu) c j = Ok v -> custom c = false -> keys_ok j -> top_ok j ->
  flag_opt (at_ j p) b -> rd_flag_opt (attr v f) = Some b.
Proof. intros R Hv Hc Hk Ht Hn. rewrite (read R Hv Hc Hk Ht) by discriminate. destruct Hn as [[-> ->]|(n & -> & ->)]; reflexivity. Qed.

Lemma texts_read l ts : Forall2 text l ts -> all_some (fun x => rd_str (Some x)) (map lift l) = Some ts.
Proof. induction 1 as [|j t l ts H _ IH]; [reflexivity|]. cbn [map all_some]. unfold text in H. subst j. rewrite IH. reflexivity. Qed.

Lemma num_nn j n : num j n -> j <> JNull. Proof. intros -> E. discriminate. Qed.
(** nested objects *)
Lemma source_read n j v x : unpack_obj (S n) C_Source j = Ok v -> keys_ok j -> unreserved j -> src_says j x ->
  exists x', rd_source code v = Some x' /\ src_blank x' = src_blank x.
Proof.
  intros Hv HK HT [_ Hp]. destruct (@unpack_class _ _ _ _ Hv eq_refl) as (attrs & E).
  pose proof (@read_text_opt C_Source "path" [s "path"] j v (src_path x) n ltac:(tbl) Hv eq_refl HK (unres_top _ HT) Hp) as H.
  exists (mkSource (src_path x) (code v)). subst v. cbn [rd_source]. rewrite H. split; reflexivity.
Qed.
Lemma bp_read n j v b : unpack_obj (S n) C_SourceBreakpoint j = Ok v -> keys_ok j -> unreserved j -> bp_says j b ->
  exists b', rd_bp code v = Some b' /\ sb_blank b' = sb_blank b.
Proof.
  intros Hv HK HT (_ & Hl & Hp). destruct (@unpack_class _ _ _ _ Hv eq_refl) as (attrs & E).
  pose proof (@read C_SourceBreakpoint "line" [s "line"] FReq j v n ltac:(tbl) Hv eq_refl HK (unres_top _ HT)) as Hl'.
  unfold member in Hl. rewrite Hl in Hl'. specialize (Hl' ltac:(discriminate)). cbn [is_null lift] in Hl'.
  pose proof (@read_text_opt C_SourceBreakpoint "condition" [s "condition"] j v (sb_cond b) n ltac:(tbl) Hv eq_refl HK (unres_top _ HT) Hp) as H.
  exists (mkSB (sb_line b) (sb_cond b) (code v)). subst v. cbn [rd_bp]. rewrite H, Hl'. split; reflexivity.
Qed.
Lemma bps_read n js l : Forall2 bp_says js l -> forall vs, mapM (apply_unpacker (unpack_obj n) (UObj C_SourceBreakpoint)) js = Ok vs ->
  (forall x, In x js -> keys_ok x /\ unreserved x) -> exists l', all_some (rd_bp code) vs = Some l' /\ map sb_blank l' = map sb_blank l.
Proof.
  induction 1 as [|j b js l Hb _ IH]; intros vs HM HO.
  - rewrite mapM_nil in HM. injection HM as <-. exists []. split; reflexivity.
  - rewrite mapM_cons in HM. cbn [apply_unpacker] in HM. destruct (unpack_obj n C_SourceBreakpoint j) as [v|] eqn:Ev; cbn [bind] in HM; [|discriminate].
    destruct (mapM _ js) as [vs'|] eqn:Em; cbn [bind] in HM; [|discriminate]. injection HM as <-.
    destruct n; [discriminate|]. destruct (HO j (or_introl eq_refl)) as [HK HT].
    destruct (bp_read _ Ev HK HT Hb) as (b' & H1 & H2). destruct (IH _ eq_refl) as (l' & H3 & H4); [intros; apply HO; right; auto|].
    exists (b' :: l'). cbn [all_some map]. rewrite H1, H3, H2, H4. split; reflexivity.
Qed.
(** C65.  Whatever JSON text a client sends: if it is accepted as a message and it is, read member by
    member, the request [r] with sequence number [q], then the debuggee acts on [r] and answers [q]. *)
Theorem C65_request_meaning : forall l j v q r,
  json_text l j -> unreserved j -> unpack_msg j = Ok v -> says true j q r ->
  exists r', req_of code v = Some (q, r') /\ blank r' = blank r.
Proof.
  intros l j v q r HL HT HU [HS HA]. assert (HK : keys_ok j) by (apply C05_json_exact in HL; eapply loads_keys; eauto). clear HL. assert (HTj : unreserved j) by exact HT. apply unres_top in HT.
  assert (go : forall cmd c, called j cmd -> dget reg_request (s cmd) = Some c -> custom c = false -> reads c "seq" [s "seq"] (FDef (PInt 0)) ->
     cls_unpack c j = Ok v /\ (act_of code c v = Some r \/ (exists r', act_of code c v = Some r' /\ blank r' = blank r) ->
       exists r', req_of code v = Some (q, r') /\ blank r' = blank r)).
  { intros cmd c Hcall Hr Hc Hseq. pose proof (@request_class _ _ _ _ Hcall HU Hr) as Hv. split; [exact Hv|].
    intros Ha. destruct (@unpack_class _ _ _ _ Hv Hc) as (attrs & E). pose proof (read Hseq Hv Hc HK HT ltac:(discriminate)) as Hq.
    unfold member in HS. rewrite HS in Hq. cbn [is_null lift] in Hq.
    assert (Ha' : exists r', act_of code c v = Some r' /\ blank r' = blank r) by (destruct Ha as [Ha|Ha]; eauto).
    destruct Ha' as (r' & Ha1 & Ha2). exists r'. split; auto. subst v. cbn [req_of]. rewrite Hq. cbn [rd_int]. now rewrite Ha1. }
  destruct HA as [Hc|t b Hc H1 H2|o Hc Ho H1|e f c Hc H1 H2 H3|t Hc H1|f Hc H1|fl Hc Ho H1|x bl m Hc H1 H2 H3|rf n vl Hc H1 H2 H3|t Hc H1|t Hc H1 H2|t Hc H1|Hc Ho|Hc|rf Hc H1];
    (match type of Hc with called _ ?cmd => eassert (Hr : dget reg_request (s cmd) = Some _) by (vm_compute; reflexivity) end; destruct (go _ _ Hc Hr eq_refl ltac:(tbl)) as [Hv Hgo]; apply Hgo; clear Hgo go Hr).
  - left. reflexivity.
  - left. cbn [act_of].
    rewrite (@read_num C_ContinueRequest "thread_id" [s "arguments"; s "threadId"] FReq j v t _ ltac:(tbl) Hv eq_refl HK HT H1).
    rewrite (@read_flag C_ContinueRequest "single_thread" [s "arguments"; s "singleThread"] true j v b _ ltac:(tbl) Hv eq_refl HK HT H2). reflexivity.
  - left. cbn [act_of].
    rewrite (@read_flag_opt C_DisconnectRequest "terminate_debuggee" [s "arguments"; s "terminateDebuggee"] j v o _ ltac:(tbl) Hv eq_refl HK HT H1). reflexivity.
  - left. cbn [act_of].
    rewrite (@read_text C_EvaluateRequest "expression" [s "arguments"; s "expression"] FReq j v e _ ltac:(tbl) Hv eq_refl HK HT H1).
    rewrite (@read_num_opt C_EvaluateRequest "frame_id" [s "arguments"; s "frameId"] j v f _ ltac:(tbl) Hv eq_refl HK HT H2).
    rewrite (@read_text_opt C_EvaluateRequest "context" [s "arguments"; s "context"] j v c _ ltac:(tbl) Hv eq_refl HK HT H3). reflexivity.
  - left. cbn [act_of]. rewrite (@read_num C_NextRequest "thread_id" [s "arguments"; s "threadId"] FReq j v t _ ltac:(tbl) Hv eq_refl HK HT H1). reflexivity.
  - left. cbn [act_of]. rewrite (@read_num C_ScopesRequest "frame_id" [s "arguments"; s "frameId"] FReq j v f _ ltac:(tbl) Hv eq_refl HK HT H1). reflexivity.
  - left. cbn [act_of]. rewrite (@read C_SetExceptionBreakpointsRequest "filters" [s "arguments"; s "filters"] (FDef (PList [])) j v _ ltac:(tbl) Hv eq_refl HK HT ltac:(discriminate)).
    unfold arg in H1. destruct H1 as [(js & -> & HF)|[-> ->]]; cbn [is_null lift rd_list]; [|reflexivity].
    now rewrite (texts_read HF).
  - right. cbn [act_of].
    rewrite (@read_flag C_SetBreakpointsRequest "source_modified" [s "arguments"; s "sourceModified"] false j v m _ ltac:(tbl) Hv eq_refl HK HT H3).
    assert (HKs : forall k, keys_ok (arg j k)) by (intros; apply at_keys; auto).
    assert (HTs : forall k, unreserved (arg j k)) by (intros; apply at_unres; auto).
    assert (Hf : exists fd, find_field C_SetBreakpointsRequest (s "source") = Some fd /\ funp fd = UObj C_Source) by (eexists; split; vm_compute; reflexivity).
    destruct Hf as (fd & Hf & Hu).
    destruct (@attr_struct _ C_SetBreakpointsRequest j v "source" [s "arguments"; s "source"] fd Hv eq_refl HK HT Hf) as [Hx _]; [vm_compute; tauto|onefrom|].
    destruct H1 as [(ds & Hds) Hpath]. unfold arg in Hds. pose proof Hds as Hds'. rewrite Hds in Hx. destruct Hx as (sv & Hsv & Has); [discriminate|].
    rewrite Hu in Hsv. cbn [unpack_field apply_unpacker] in Hsv. destruct (jdepth j) as [|n]; [discriminate|]. rewrite <- Hds in Hsv.
    destruct (@source_read _ _ _ x Hsv (HKs "source"%string) (HTs "source"%string)) as (x' & Hx1 & Hx2); [split; [exists ds; exact Hds|exact Hpath]|].
    assert (Hf2 : exists fd, find_field C_SetBreakpointsRequest (s "breakpoints") = Some fd /\ funp fd = UObj C_SourceBreakpoint /\ fdef fd = FDef (PList [])) by (eexists; repeat split; vm_compute; reflexivity).
    destruct Hf2 as (fd2 & Hf2 & Hu2 & Hd2).
    destruct (@attr_struct _ C_SetBreakpointsRequest j v "breakpoints" [s "arguments"; s "breakpoints"] fd2 Hv eq_refl HK HT Hf2) as [Hb1 Hb2]; [vm_compute; tauto|onefrom|].
    assert (Hbl : exists l', rd_list (rd_bp code) (attr v "breakpoints") = Some l' /\ map sb_blank l' = map sb_blank bl).
    { destruct H2 as [(js & Hj & HF)|[Hj ->]].
      - pose proof (HKs "breakpoints"%string) as HKb. pose proof (HTs "breakpoints"%string) as HTb. unfold arg in Hj, HKb, HTb. rewrite Hj in Hb1, HKb, HTb. destruct Hb1 as (bv & Hbv & Hab); [discriminate|].
        rewrite Hu2 in Hbv. cbn [unpack_field] in Hbv. destruct (mapM _ js) as [vs|] eqn:Em; cbn [bind] in Hbv; [|discriminate]. injection Hbv as <-.
        rewrite Hab. cbn [rd_list]. apply (@bps_read _ _ _ HF _ Em). intros y Hy. split; [eapply keys_arr; eauto|eapply unres_arr; eauto].
      - unfold arg in Hj. destruct (Hb2 Hj) as (y & Hy1 & Hy2). rewrite Hd2 in Hy1. injection Hy1 as <-. rewrite Hy2. exists []. split; reflexivity. }
    destruct Hbl as (l' & Hl1 & Hl2). rewrite Has, Hx1, Hl1. exists (RSetBreakpoints x' l' m). split; auto. cbn [blank]. now rewrite Hx2, Hl2.
  - left. cbn [act_of].
    rewrite (@read_num C_SetVariableRequest "variables_reference" [s "arguments"; s "variablesReference"] FReq j v rf _ ltac:(tbl) Hv eq_refl HK HT H1).
    rewrite (@read_text C_SetVariableRequest "name" [s "arguments"; s "name"] FReq j v n _ ltac:(tbl) Hv eq_refl HK HT H2).
    rewrite (@read_text C_SetVariableRequest "value" [s "arguments"; s "value"] FReq j v vl _ ltac:(tbl) Hv eq_refl HK HT H3). reflexivity.
  - left. cbn [act_of]. rewrite (@read_num C_StackTraceRequest "thread_id" [s "arguments"; s "threadId"] FReq j v t _ ltac:(tbl) Hv eq_refl HK HT H1). reflexivity.
  - left. cbn [act_of].
    assert (Ha : attr v "thread_id" = Some (PInt (Z.of_N t))).
    { assert (Hf : exists fd, find_field C_StepInRequest (s "thread_id") = Some fd /\ funp fd = UId) by (eexists; split; vm_compute; reflexivity).
      destruct Hf as (fd & Hf & Hu).
      destruct (@attr_plain _ C_StepInRequest j v "thread_id" [s "arguments"; s "threadId"] fd Hv eq_refl HK HT Hf Hu) as [Hx _].
      - vm_compute. tauto.
      - intros p' Hp' Hne. change (from C_StepInRequest (s "thread_id")) with [[s "arguments"; s "threadId"]; [s "arguments"; s "targetId"]] in Hp'.
        destruct Hp' as [<-|[<-|[]]]; [exfalso; apply Hne; reflexivity|exact H2].
      - unfold arg, num in H1. rewrite H1 in Hx. apply Hx. discriminate. }
    rewrite (rd_id_num _ Ha). reflexivity.
  - left. cbn [act_of]. rewrite (@read_num C_StepOutRequest "thread_id" [s "arguments"; s "threadId"] FReq j v t _ ltac:(tbl) Hv eq_refl HK HT H1). reflexivity.
  - left. reflexivity.
  - left. reflexivity.
  - left. cbn [act_of]. rewrite (@read_num C_VariablesRequest "variables_reference" [s "arguments"; s "variablesReference"] FReq j v rf _ ltac:(tbl) Hv eq_refl HK HT H1). reflexivity.
Qed.
End C65.
