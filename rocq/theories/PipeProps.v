(** C71: a connected session, from the client's bytes to the client's bytes. *)
From Verif Require Import PyBase PyDict Digits JsonModel JsonSpec JsonProofs JsonGrammar MsgBase MsgTables MsgModel MsgSpec AdapterModel AdapterSpec AdapterProofs AdapterProps Utf8 DbgTypes BpModel BpSpec ThreadModel StratModel SysModel SysSpec
  SysProofs SysProofs2 SysProofs7 SysProofs8 SysProofs11 SysProps WireSpec WireModel WireProps WireEnd ReadModel OutSpec OutModel OutProps OutEnd PipeModel PipeSpec.
From Coq Require Import Lia.
Set Implicit Arguments.
Local Open Scope Z_scope.
Ltac csplit := repeat match goal with |- _ /\ _ => split end.

Lemma frame_same body : frame_bytes body = frame_spec body.
Proof. unfold frame_bytes, header, frame_spec. now rewrite <- !app_assoc. Qed.

(* ---------------------------------------------------------------- bytes *)
Lemma shows_snoc srcj other n b os payload j o : shows srcj other n b os -> json_text payload j -> tells srcj other j (n + Z.of_nat (length os)) o ->
  shows srcj other n (b ++ frame_spec payload) (os ++ [o]).
Proof.
  intros H. induction H as [n|n payload0 j0 o0 b os J T H IH]; intros J1 T1.
  - cbn [app length] in *. rewrite Z.add_0_r in T1. rewrite <- (app_nil_r (frame_spec payload)). econstructor; eauto. constructor.
  - cbn [app length] in *. rewrite <- app_assoc. econstructor; eauto. apply IH; auto.
    replace (n + 1 + Z.of_nat (length os)) with (n + Z.of_nat (S (length os))) by lia. exact T1.
Qed.
Lemma forwards_request code v q r : req_of code v = Some (q, r) -> (forall t, r <> RDisconnect t) -> forwards v = true.
Proof.
  destruct v as [| | | | | | |c attrs]; cbn [req_of]; try discriminate. destruct (rd_int _); [|discriminate]. destruct (act_of code c (PObj c attrs)) as [r0|] eqn:A; [|discriminate].
  intros E ND. injection E as <- <-. destruct c; cbn [act_of] in A; try discriminate; try reflexivity.
  exfalso. unfold omap in A. destruct (rd_flag_opt _); [|discriminate]. injection A as <-. eapply ND. reflexivity.
Qed.
Lemma blank_wf q r r' : blank r' = blank r -> label_wf (LReq q r) -> label_wf (LReq q r').
Proof.
  destruct r, r'; cbn [blank label_wf]; intros E H; try discriminate; auto. injection E as _ E _. intros b IN.
  apply (in_map sb_blank) in IN. rewrite E in IN. apply in_map_iff in IN. destruct IN as (b0 & E0 & IN0). specialize (H _ IN0). unfold sb_blank in E0. injection E0 as E1 _. now rewrite <- E1.
Qed.
Lemma blank_disc r r' : blank r' = blank r -> (forall t, r <> RDisconnect t) -> forall t, r' <> RDisconnect t.
Proof. intros E H t ->. destruct r; cbn [blank] in E; try discriminate. eapply H. reflexivity. Qed.
(** What one of the adapter's messages to the debuggee carries. *)
Definition carries (code : pval -> N) (u : up) (i : input) : Prop :=
  match u, i with
  | UConfig m, IConfig m' => m = m'
  | UMsg v, IReq q r => exists r', req_of code v = Some (q, r') /\ blank r' = blank r /\ label_wf (LReq q r')
  | _, _ => False end.
Lemma asks_inv n x rs : asks n x rs -> (x = [] /\ rs = []) \/ exists body r b rs', body_asks body n r /\ asks (n + 1) b rs' /\ x = frame_spec body ++ b /\ rs = r :: rs'.
Proof. destruct 1 as [n|n body r b rs B A]; [auto|]. right. exists body, r, b, rs. auto. Qed.
(** The buffer of a connection that gets such a stream. *)
Lemma asks_next code c rest rs : asks (seq_in c) (inb c ++ rest) rs ->
  (next_message c = (Ok None, c) /\ (rest = [] -> inb c = [] /\ rs = [])) \/
  exists r rs' b v, rs = r :: rs' /\ asks (seq_in c + 1) (b ++ rest) rs' /\
    next_message c = (Ok (Some v), mkConn (out c) b (seq_in c + 1) (seq_out c)) /\ forwards v = true /\ carries code (UMsg v) (IReq (seq_in c) r).
Proof.
  intros A. apply asks_inv in A. destruct A as [(E2 & ->)|(body & r & b & rs' & B & A' & E2 & ->)].
  - left. apply app_eq_nil in E2. destruct E2 as (E2 & ->). split; [|auto]. unfold next_message. rewrite E2. reflexivity.
  - destruct (Nat.lt_ge_cases (length (inb c)) (length (frame_spec body))) as [L|L].
    + left. assert (X : exists x, inb c ++ x = frame_spec body /\ x <> []).
      { exists (skipn (length (inb c)) (frame_spec body)). assert (Y : firstn (length (inb c)) (frame_spec body) = inb c).
        { apply (f_equal (firstn (length (inb c)))) in E2. rewrite !firstn_app, Nat.sub_diag, firstn_all in E2. replace (length (inb c) - length (frame_spec body))%nat with O in E2 by lia. rewrite !firstn_O, !app_nil_r in E2. first [exact E2|symmetry; exact E2]. }
        split; [rewrite <- Y at 1; apply firstn_skipn|]. intros Z. apply (f_equal (@length N)) in Z. rewrite skipn_length in Z. cbn in Z. lia. }
      destruct X as (x & X1 & X2). split; [eapply C06_incomplete_is_none; eauto|]. intros ->. rewrite app_nil_r in E2. apply (f_equal (@length N)) in E2. rewrite app_length in E2. lia.
    + right. assert (X : exists b', inb c = frame_spec body ++ b' /\ b' ++ rest = b).
      { exists (skipn (length (frame_spec body)) (inb c)). assert (Y : firstn (length (frame_spec body)) (inb c) = frame_spec body).
        { apply (f_equal (firstn (length (frame_spec body)))) in E2. rewrite !firstn_app, Nat.sub_diag, firstn_all in E2. replace (length (frame_spec body) - length (inb c))%nat with O in E2 by lia. rewrite !firstn_O, !app_nil_r in E2. first [exact E2|symmetry; exact E2]. }
        assert (Z : inb c = frame_spec body ++ skipn (length (frame_spec body)) (inb c)) by (rewrite <- Y at 1; symmetry; apply firstn_skipn).
        split; [exact Z|]. rewrite Z in E2. rewrite <- app_assoc in E2. apply app_inv_head in E2. now symmetry. }
      destruct X as (b' & X1 & X2). subst b. destruct B as (l & j & B1 & B2 & B3 & B4 & B5 & B6 & B7 & B8).
      destruct (C65_bytes code B1 B2 B3 B4 B6 B5) as (v & r' & V1 & V2 & V3).
      exists r, rs', b', v. split; [reflexivity|]. split; [exact A'|]. split.
      * rewrite <- frame_same in X1. rewrite (next_frame _ _ _ X1), V1. unfold finish.
        assert (G : get_attr v (s "seq") = Ok (PInt (seq_in c))).
        { destruct v as [| | | | | | |cl attrs]; cbn [req_of] in V2; try discriminate. unfold attr in V2. cbn [get_attr]. destruct (dget attrs (s "seq")) as [[| |z| | | | |]|]; cbn [rd_int] in V2; try discriminate.
          destruct (act_of _ _ _); [|discriminate]. now injection V2 as ->. }
        rewrite G. cbn [seq_eqb]. now rewrite Z.eqb_refl.
      * split; [eapply forwards_request; [exact V2|]; eapply blank_disc; eauto|]. exists r'. split; [exact V2|]. split; [exact V3|]. eapply blank_wf; eauto.
Qed.

Lemma numbered_app n a b : numbered n (a ++ b) = numbered n a ++ numbered (n + Z.of_nat (length a)) b.
Proof.
  revert n. induction a as [|x a IH]; intros n; cbn [numbered app length]; [now rewrite Z.add_0_r|]. rewrite IH. do 3 f_equal. lia.
Qed.
Lemma received_app a b : received (a ++ b) = received a ++ received b.
Proof. apply flat_map_app. Qed.
Lemma inputs_app a b : inputs (a ++ b) = inputs a ++ inputs b.
Proof. apply flat_map_app. Qed.
Lemma playbook_app a b : playbook (a ++ b) = playbook a ++ playbook b.
Proof. apply flat_map_app. Qed.

Section P.
Variable code : pval -> N.
Variable src_obj : Source -> pval.
Variable srcj : Source -> json.
Variable other : N -> pystr.
Variable tb : Cmd -> Z -> pystr.
Variable py_int : pystr -> option Z.
Variable py_repr : heap -> val -> pystr.
Variable type_name : heap -> val -> pystr.
Variable tmpl : pystr -> nat -> heap -> res (list obj * val).
Variable tmpl_args : nat -> nat -> heap -> res (list obj * val).
Variable err_text : exn -> pystr.
Variable parse_repl : pystr -> res ReplCmd.
Notation step := (step py_int py_repr type_name tmpl tmpl_args err_text parse_repl).
Notation run := (run py_int py_repr type_name tmpl tmpl_args err_text parse_repl).
Notation pstep := (pstep code src_obj other tb py_int py_repr type_name tmpl tmpl_args err_text parse_repl).
Notation prun := (prun code src_obj other tb py_int py_repr type_name tmpl tmpl_args err_text parse_repl).

Lemma run_one y ls y1 l y2 : run y ls y1 -> step y1 l = Some y2 -> run y (ls ++ [l]) y2.
Proof. intros R S. apply run_app. exists y1. split; [exact R|]. econstructor; [exact S|constructor]. Qed.

(** The way in. *)
Lemma way_in maps c0 y0 n0 pls p : inb c0 = [] -> prun (mkPipe c0 [UConfig maps] y0 n0 [] []) pls p -> trace_wf (playbook pls) ->
  forall rest rs, asks (seq_in c0) (received pls ++ rest) rs ->
  exists ls rs1 rs2 i1 i2, rs = rs1 ++ rs2 /\ run y0 ls (p_sys p) /\ trace_wf ls /\ filter is_playbook ls = playbook pls /\
    asks (seq_in (p_conn p)) (inb (p_conn p) ++ rest) rs2 /\ seq_in (p_conn p) = seq_in c0 + Z.of_nat (length rs1) /\
    IConfig maps :: numbered (seq_in c0) rs1 = i1 ++ i2 /\ Forall2 alike (inputs ls) i1 /\ Forall2 (carries code) (p_up p) i2.
Proof.
  intros IB R. remember (mkPipe c0 [UConfig maps] y0 n0 [] []) as p0 eqn:E0. induction R as [p|p pls p1 l p2 R IH S]; intros WP rest rs A.
  - subst p. cbn [p_conn p_up p_sys]. exists [], [], rs, [], [IConfig maps]. cbn [received flat_map app] in A. rewrite IB. cbn [app length numbered inputs flat_map filter playbook].
    repeat split; auto; try constructor; auto; try lia. reflexivity.
  - rewrite received_app in A. rewrite playbook_app in WP. apply Forall_app in WP. destruct WP as (WP & WL). rewrite <- app_assoc in A.
    destruct (IH E0 WP _ _ A) as (ls & rs1 & rs2 & i1 & i2 & E & RU & W & FP & AS & SI & NU & F1 & F2). clear IH.
    rewrite playbook_app. destruct l as [d| | |l| |]; cbn [PipeModel.pstep received playbook flat_map app] in *.
    + injection S as <-. cbn [p_conn p_up p_sys receive_data inb seq_in]. rewrite !app_nil_r in *. rewrite app_assoc in AS. exists ls, rs1, rs2, i1, i2. auto 20.
    + rewrite app_nil_r. destruct (asks_next code _ _ AS) as [(N & _)|(r & rs2' & b & v & -> & A' & N & FW & CA)]; rewrite N in S; [discriminate|]. rewrite FW in S. injection S as <-. cbn [p_conn p_up p_sys inb seq_in].
      exists ls, (rs1 ++ [r]), rs2', i1, (i2 ++ [IReq (seq_in (p_conn p1)) r]). rewrite <- app_assoc. csplit; auto.
      * rewrite app_length. cbn [length]. lia.
      * rewrite numbered_app, app_comm_cons, NU, <- app_assoc. cbn [numbered]. now rewrite <- SI.
      * apply Forall2_app; auto.
    + rewrite app_nil_r. destruct (p_up p1) as [|[m|v] u]; [discriminate| |].
      * destruct (step (p_sys p1) (LConfig m)) as [y|] eqn:ST; [|discriminate]. injection S as <-. cbn [p_conn p_up p_sys].
        inversion F2 as [|? i ? i2' C F2']; subst. destruct i as [m'|]; [|contradiction]. cbn in C. subst m'.
        exists (ls ++ [LConfig m]), rs1, rs2, (i1 ++ [IConfig m]), i2'. rewrite inputs_app, filter_app. cbn [filter is_playbook]. rewrite app_nil_r, <- app_assoc. csplit; auto.
        -- eapply run_one; eauto.
        -- apply Forall_app. split; [auto|]. repeat constructor.
        -- apply Forall2_app; auto. repeat constructor.
      * destruct (req_of code v) as [(q, r)|] eqn:RQ; [|discriminate]. destruct (step (p_sys p1) (LReq q r)) as [y|] eqn:ST; [|discriminate]. injection S as <-. cbn [p_conn p_up p_sys].
        inversion F2 as [|? i ? i2' C F2']; subst. destruct i as [m'|q' r']; [contradiction|]. destruct C as (r0 & C1 & C2 & C3). rewrite RQ in C1. injection C1 as <- <-.
        exists (ls ++ [LReq q r]), rs1, rs2, (i1 ++ [IReq q r']), i2'. rewrite inputs_app, filter_app. cbn [filter is_playbook]. rewrite app_nil_r, <- app_assoc. csplit; auto.
        -- eapply run_one; eauto.
        -- apply Forall_app. split; [auto|]. constructor; [exact C3|constructor].
        -- apply Forall2_app; auto. constructor; [split; auto|constructor].
    + destruct (is_playbook l) eqn:PL; [|discriminate]. destruct (step (p_sys p1) l) as [y|] eqn:ST; [|discriminate]. injection S as <-. cbn [p_conn p_up p_sys].
      exists (ls ++ [l]), rs1, rs2, i1, i2. rewrite inputs_app, filter_app. cbn [filter]. rewrite PL, FP.
      replace (inputs [l]) with (@nil input) by (destruct l; try reflexivity; discriminate). rewrite app_nil_r. csplit; auto.
      * eapply run_one; eauto.
      * apply Forall_app. split; auto.
    + rewrite app_nil_r. destruct (nth_error _ _) as [[o|]|]; try discriminate. injection S as <-. cbn [p_conn p_up p_sys]. exists ls, rs1, rs2, i1, i2. auto 20.
    + rewrite app_nil_r. destruct (p_down p1) as [|o d]; [discriminate|]. unfold send_out in S. unfold AdapterModel.queue_msg in S.
      destruct (frame_of _); [|discriminate]. cbn in S. injection S as <-. cbn [p_conn p_up p_sys inb seq_in]. exists ls, rs1, rs2, i1, i2. auto 20.
Qed.

Notation outq y := (d_out (w_dbg (y_w y))).
Lemma replies_marks os : marks (map Some os) = map Some (replies os).
Proof. induction os as [|o os IH]; [reflexivity|]. cbn [map marks replies flat_map]. fold (marks (map Some os)) (replies os). rewrite IH. destruct (resp_of o); reflexivity. Qed.
Lemma skipn_grow {A} n (a b : list A) : (n <= length a)%nat -> skipn n (a ++ b) = skipn n a ++ b.
Proof. intros L. rewrite skipn_app. replace (n - length a)%nat with O by lia. reflexivity. Qed.
Lemma drain_all c b : out c = [] -> data_to_send (mkConn (out c ++ b) (inb c) (seq_in c) (seq_out c + 1)) (-1) = (b, mkConn [] (inb c) (seq_in c) (seq_out c + 1)).
Proof.
  intros E. unfold data_to_send. rewrite E. cbn [out inb seq_in seq_out app Z.eqb]. rewrite Z.min_id. unfold slice_to, slice_from.
  assert (X : slice_idx b (Z.of_nat (length b)) = length b) by (unfold slice_idx; destruct (_ <? _) eqn:?; lia).
  rewrite X, firstn_all, skipn_all. reflexivity.
Qed.
Lemma deliver_one c o : names_ok other tb -> fine src_obj srcj o -> out c = [] ->
  exists payload j, send_out false c (out_obj src_obj other tb o) = (Ok (frame_spec payload), mkConn [] (inb c) (seq_in c) (seq_out c + 1)) /\ json_text payload j /\ tells srcj other j (seq_out c) o.
Proof.
  intros HN F E. destruct (@C66_bytes src_obj srcj other tb c o HN F) as (pl & j & Q & J & T). exists pl, j. split; [|auto].
  unfold send_out. rewrite Q. rewrite (drain_all c _ E). reflexivity.
Qed.

(** The way out. *)
Lemma way_out maps c0 y0 n0 pls p : inb c0 = [] -> out c0 = [] -> SInv y0 -> Forall ackopt (outq y0) -> (n0 <= length (outq y0))%nat -> names_ok other tb ->
  prun (mkPipe c0 [UConfig maps] y0 n0 [] []) pls p -> trace_wf (playbook pls) ->
  forall rest rs, asks (seq_in c0) (received pls ++ rest) rs -> Forall (writable src_obj srcj) (outq (p_sys p)) ->
  exists os more, out (p_conn p) = [] /\ seq_out (p_conn p) = seq_out c0 + Z.of_nat (length os) /\ shows srcj other (seq_out c0) (p_written p) os /\
    p_sent p = (n0 + length os + length (p_down p))%nat /\ skipn n0 (outq (p_sys p)) = map Some (os ++ p_down p) ++ more /\ (n0 <= length (outq (p_sys p)))%nat.
Proof.
  intros IB OB S0 A0 L0 HN R. remember (mkPipe c0 [UConfig maps] y0 n0 [] []) as p0 eqn:E0. induction R as [p|p pls p1 l p2 R IH S]; intros WP rest rs A HW.
  - subst p. cbn [p_conn p_up p_sys p_sent p_down p_written]. exists [], (skipn n0 (outq y0)). cbn [app map length]. csplit; auto; try lia. constructor.
  - subst p. pose proof WP as WP0. pose proof A as A1. rewrite received_app in A. rewrite playbook_app in WP. apply Forall_app in WP. destruct WP as (WP & WL). rewrite <- app_assoc in A.
    destruct (way_in IB R WP _ A) as (ls & rs1 & rs2 & i1 & i2 & _ & RU & W & _ & AS & _ & _ & _ & F2).
    destruct (@run_inv py_int py_repr type_name tmpl tmpl_args err_text parse_repl ls y0 (p_sys p1) S0 W RU) as (S1 & _).
    pose proof (@run_ack py_int py_repr type_name tmpl tmpl_args err_text parse_repl ls y0 (p_sys p1) S0 W RU A0) as A2.
    assert (G : exists ms, outq (p_sys p2) = outq (p_sys p1) ++ ms).
    { destruct l as [d| | |l| |]; cbn [PipeModel.pstep] in S.
      - injection S as <-. exists []. now rewrite app_nil_r.
      - destruct (next_message (p_conn p1)) as ([[m|]|], c); try discriminate. destruct (forwards m); [|discriminate]. injection S as <-. exists []. now rewrite app_nil_r.
      - destruct (p_up p1) as [|[m|v] u]; [discriminate| |].
        + destruct (step (p_sys p1) (LConfig m)) as [y|] eqn:ST; [|discriminate]. injection S as <-. cbn [p_sys].
          destruct (@step_marks py_int py_repr type_name tmpl tmpl_args err_text parse_repl _ (LConfig m) _ S1 I ST) as (ms & E & _). eauto.
        + destruct (req_of code v) as [(q, r)|] eqn:RQ; [|discriminate]. destruct (step (p_sys p1) (LReq q r)) as [y|] eqn:ST; [|discriminate]. injection S as <-. cbn [p_sys].
          inversion F2 as [|? i ? i2' C F2']; subst. destruct i as [m'|q' r']; [contradiction|]. destruct C as (r0 & C1 & C2 & C3). rewrite RQ in C1. injection C1 as <- <-.
          destruct (@step_marks py_int py_repr type_name tmpl tmpl_args err_text parse_repl _ (LReq q r) _ S1 C3 ST) as (ms & E & _). eauto.
      - destruct (is_playbook l) eqn:PL; [|discriminate]. destruct (step (p_sys p1) l) as [y|] eqn:ST; [|discriminate]. injection S as <-. cbn [p_sys].
        cbn in WL. inversion WL as [|? ? WL1 _]; subst. destruct (@step_marks py_int py_repr type_name tmpl tmpl_args err_text parse_repl _ l _ S1 WL1 ST) as (ms & E & _). eauto.
      - destruct (nth_error _ _) as [[o|]|]; try discriminate. injection S as <-. exists []. now rewrite app_nil_r.
      - destruct (p_down p1) as [|o d]; [discriminate|]. destruct (send_out _ _ _) as ([b|], c); [|discriminate]. injection S as <-. exists []. now rewrite app_nil_r. }
    destruct G as (ms & G). assert (HW1 : Forall (writable src_obj srcj) (outq (p_sys p1))) by (rewrite G in HW; apply Forall_app in HW; tauto).
    destruct (IH eq_refl WP _ _ A HW1) as (os & more & O & SO & SH & PS & SK & LE). clear IH.
    assert (K : p_conn p2 = p_conn p1 -> p_written p2 = p_written p1 -> p_sent p2 = p_sent p1 -> p_down p2 = p_down p1 ->
      exists os more, out (p_conn p2) = [] /\ seq_out (p_conn p2) = seq_out c0 + Z.of_nat (length os) /\ shows srcj other (seq_out c0) (p_written p2) os /\
      p_sent p2 = (n0 + length os + length (p_down p2))%nat /\ skipn n0 (outq (p_sys p2)) = map Some (os ++ p_down p2) ++ more /\ (n0 <= length (outq (p_sys p2)))%nat).
    { intros -> -> -> ->. exists os, (more ++ ms). rewrite G, skipn_grow by exact LE. rewrite SK, <- app_assoc. csplit; auto. rewrite app_length. lia. }
    destruct l as [d| | |l| |]; cbn [PipeModel.pstep] in S.
    + injection S as <-. cbn [p_conn p_up p_sys p_sent p_down p_written receive_data out seq_out] in *. exists os, more. auto 10.
    + destruct (asks_next code _ _ AS) as [(N & _)|(r & rs2' & b & v & _ & _ & N & FW & _)]; rewrite N in S; [discriminate|]. rewrite FW in S. injection S as <-.
      cbn [p_conn p_up p_sys p_sent p_down p_written out seq_out] in *. exists os, more. auto 10.
    + destruct (p_up p1) as [|[m|v] u]; [discriminate| |].
      * destruct (step (p_sys p1) (LConfig m)) as [y|]; [|discriminate]. injection S as <-. apply K; reflexivity.
      * destruct (req_of code v) as [(q, r)|]; [|discriminate]. destruct (step (p_sys p1) (LReq q r)) as [y|]; [|discriminate]. injection S as <-. apply K; reflexivity.
    + destruct (is_playbook l); [|discriminate]. destruct (step (p_sys p1) l) as [y|]; [|discriminate]. injection S as <-. apply K; reflexivity.
    + destruct (nth_error (outq (p_sys p1)) (p_sent p1)) as [[o|]|] eqn:NE; try discriminate. injection S as <-. cbn [p_conn p_up p_sys p_sent p_down p_written] in *.
      assert (M : exists more', more = Some o :: more').
      { assert (X : nth_error (skipn n0 (outq (p_sys p1))) (length os + length (p_down p1)) = Some (Some o)).
        { rewrite <- (firstn_skipn n0 (outq (p_sys p1))) in NE. rewrite nth_error_app2 in NE by (rewrite firstn_length; lia). rewrite firstn_length in NE.
          rewrite <- NE. f_equal. rewrite Nat.min_l by lia. lia. }
        rewrite SK in X. rewrite nth_error_app2 in X by (rewrite map_length, app_length; lia). rewrite map_length, app_length, Nat.sub_diag in X. destruct more as [|m more]; [discriminate|]. cbn in X. injection X as ->. eauto. }
      destruct M as (more' & ->). exists os, more'. csplit; auto.
      * rewrite app_length. cbn [length]. lia.
      * rewrite SK, !app_assoc, map_app, <- app_assoc, map_app. cbn [map]. rewrite map_app, <- !app_assoc. reflexivity.
    + destruct (p_down p1) as [|o d] eqn:PD; [discriminate|]. assert (IN : In (Some o) (outq (p_sys p1))).
      { rewrite <- (firstn_skipn n0 (outq (p_sys p1))). apply in_or_app. right. rewrite SK. apply in_or_app. left. apply in_map. apply in_or_app. right. left. reflexivity. }
      assert (F : fine src_obj srcj o).
      { rewrite Forall_forall in A2, HW1. specialize (A2 _ IN). specialize (HW1 _ IN). split; [exact A2|exact HW1]. }
      destruct (deliver_one (p_conn p1) HN F O) as (pl & j & D & J & T). rewrite D in S. injection S as <-. cbn [p_conn p_up p_sys p_sent p_down p_written out seq_out inb] in *.
      exists (os ++ [o]), more. rewrite app_length. cbn [length] in *. csplit; auto.
      * lia.
      * rewrite SO in T. eapply shows_snoc; eauto.
      * lia.
      * rewrite SK. rewrite <- app_assoc. reflexivity.
Qed.

Definition prefix_of {A} (a b : list A) : Prop := exists c, b = a ++ c.

(** ** C71 *)
(** [ls0] is what happened before this client connected and [n0] of the messages queued
    since then have already gone to an earlier client. *)
Theorem C71_session : forall ls0 y0 n0 maps c0 pls p rest rs,
  trace_wf ls0 -> run sys_init ls0 y0 -> (n0 <= length (outq y0))%nat ->
  inb c0 = [] -> out c0 = [] -> names_ok other tb ->
  prun (mkPipe c0 [UConfig maps] y0 n0 [] []) pls p -> trace_wf (playbook pls) ->
  asks (seq_in c0) (received pls ++ rest) rs ->
  Forall (writable src_obj srcj) (outq (p_sys p)) ->
  exists ls ins os,
    run y0 ls (p_sys p) /\ trace_wf ls /\ filter is_playbook ls = playbook pls /\
    Forall2 alike (inputs ls) ins /\ prefix_of ins (IConfig maps :: numbered (seq_in c0) rs) /\
    shows srcj other (seq_out c0) (p_written p) os /\ prefix_of (map Some os) (skipn n0 (outq (p_sys p))).
Proof.
  intros ls0 y0 n0 maps c0 pls p rest rs W0 R0 L0 IB OB HN R WP A HW.
  pose proof (@run_sinv py_int py_repr type_name tmpl tmpl_args err_text parse_repl ls0 y0 W0 R0) as S0.
  pose proof (@run_ack py_int py_repr type_name tmpl tmpl_args err_text parse_repl ls0 sys_init y0 sinv_init W0 R0 (Forall_nil _)) as A0.
  destruct (way_in IB R WP _ A) as (ls & rs1 & rs2 & i1 & i2 & E & RU & W & FP & _ & _ & NU & F1 & _).
  destruct (way_out IB OB S0 A0 L0 HN R WP _ A HW) as (os & more & _ & _ & SH & _ & SK & _).
  exists ls, i1, os. csplit; auto.
  - exists (i2 ++ numbered (seq_in c0 + Z.of_nat (length rs1)) rs2). rewrite E, numbered_app, app_comm_cons, NU. now rewrite <- app_assoc.
  - rewrite SK. rewrite map_app, <- app_assoc. eexists. reflexivity.
Qed.

Lemma requests_inputs ls ins : Forall2 alike (inputs ls) ins -> flat_map expects_marks (requests ls) = flat_map (fun i => match i with IReq q r => expects_marks (q, r) | _ => [] end) ins.
Proof.
  revert ins. induction ls as [|l ls IH]; intros ins F.
  - inversion F; subst. reflexivity.
  - cbn [requests inputs flat_map] in *. fold (requests ls) (inputs ls) in *. destruct l; cbn [app] in F; try (apply IH; exact F); inversion F as [|? i ? ins' A F']; subst; destruct i; try contradiction.
    + cbn [app flat_map]. destruct A as (-> & B). rewrite (IH _ F'). f_equal. unfold expects_marks. cbn [snd fst]. destruct r, r0; cbn [blank] in B; try discriminate; try reflexivity. now injection B as ->.
    + cbn [flat_map app]. apply IH. exact F'.
Qed.
Lemma expects_answers n rs : (forall t, ~ In (RDisconnect t) rs) -> ~ In RTerminate rs ->
  flat_map (fun i => match i with IReq q r => expects_marks (q, r) | _ => [] end) (numbered n rs) = map Some (answers n rs).
Proof.
  revert n. induction rs as [|r rs IH]; intros n D T; [reflexivity|]. cbn [numbered flat_map answers map]. rewrite IH by (intros; intro; first [eapply D; right; eassumption|apply T; right; assumption]).
  destruct r; cbn [expects_marks snd fst app]; try reflexivity; exfalso; [eapply D; left; reflexivity|apply T; left; reflexivity].
Qed.
Lemma asks_disc n b rs : asks n b rs -> forall t, ~ In (RDisconnect t) rs.
Proof. induction 1 as [|n body r b rs B A IH]; intros t H; [destruct H|]. destruct H as [->|H]; [|eapply IH; eauto]. destruct B as (? & ? & ? & ? & ? & ? & ? & ? & ? & B). eapply B. reflexivity. Qed.
Lemma asks_nil n rs : asks n [] rs -> rs = [].
Proof.
  intros A. apply asks_inv in A. destruct A as [(_ & ->)|(body & r & b & rs' & _ & _ & E & _)]; [reflexivity|]. symmetry in E. apply app_eq_nil in E. destruct E as (E & _). discriminate.
Qed.

(** When everything has arrived, every request has its one response, in order. *)
Theorem C71_answered : forall ls0 y0 maps c0 pls p rs,
  trace_wf ls0 -> run sys_init ls0 y0 -> requests ls0 = [] ->
  inb c0 = [] -> out c0 = [] -> names_ok other tb ->
  prun (mkPipe c0 [UConfig maps] y0 0 [] []) pls p -> trace_wf (playbook pls) ->
  asks (seq_in c0) (received pls) rs -> ~ In RTerminate rs ->
  Forall (writable src_obj srcj) (outq (p_sys p)) -> drained p ->
  exists os, shows srcj other (seq_out c0) (p_written p) os /\ outq (p_sys p) = map Some os /\ replies os = answers (seq_in c0) rs.
Proof.
  intros ls0 y0 maps c0 pls p rs W0 R0 Q0 IB OB HN R WP A NT HW (D1 & D2 & D3 & D4 & D5).
  pose proof (@run_sinv py_int py_repr type_name tmpl tmpl_args err_text parse_repl ls0 y0 W0 R0) as S0.
  pose proof (@run_ack py_int py_repr type_name tmpl tmpl_args err_text parse_repl ls0 sys_init y0 sinv_init W0 R0 (Forall_nil _)) as A0.
  rewrite <- (app_nil_r (received pls)) in A.
  destruct (way_in IB R WP _ A) as (ls & rs1 & rs2 & i1 & i2 & E & RU & W & FP & AS & _ & NU & F1 & F2).
  destruct (way_out IB OB S0 A0 (Nat.le_0_l _) HN R WP _ A HW) as (os & more & _ & _ & SH & PS & SK & _).
  rewrite D1 in AS. apply asks_nil in AS. subst rs2. rewrite app_nil_r in E. subst rs1. rewrite D2 in F2. inversion F2; subst. rewrite app_nil_r in NU. subst i1.
  rewrite D5, app_nil_r in SK. cbn [skipn] in SK. rewrite D5 in PS. cbn [length] in PS.
  assert (M : more = []). { apply (f_equal (@length _)) in SK. rewrite app_length, map_length in SK. destruct more; [reflexivity|]. cbn [length] in SK. lia. }
  subst more. rewrite app_nil_r in SK. exists os. split; [exact SH|]. split; [exact SK|].
  assert (RA : run sys_init (ls0 ++ ls) (p_sys p)) by (apply run_app; eauto).
  assert (WA : trace_wf (ls0 ++ ls)) by (apply Forall_app; auto).
  pose proof (@C20_one_response_per_request py_int py_repr type_name tmpl tmpl_args err_text parse_repl (ls0 ++ ls) (p_sys p) WA RA) as C.
  unfold pending in C. rewrite D3 in C. cbn [flat_map] in C. rewrite app_nil_r, requests_app, Q0 in C. cbn [app] in C. rewrite SK, replies_marks, (requests_inputs _ F1) in C. cbn [flat_map app] in C.
  rewrite expects_answers in C; [|eapply asks_disc; eauto|exact NT].
  apply (f_equal (flat_map (fun x : option (Cmd * Z) => match x with Some y => [y] | None => [] end))) in C.
  assert (X : forall l : list (Cmd * Z), flat_map (fun x : option (Cmd * Z) => match x with Some y => [y] | None => [] end) (map Some l) = l) by (induction l as [|a l IH]; cbn; [reflexivity|now rewrite IH]).
  now rewrite !X in C.
Qed.

(** Until then something can happen, unless the debuggee waits for a play or was told to
    terminate: no message is stuck. *)
Theorem C71_progress : forall ls0 y0 n0 maps c0 pls p rs,
  trace_wf ls0 -> run sys_init ls0 y0 -> (n0 <= length (outq y0))%nat ->
  inb c0 = [] -> out c0 = [] -> names_ok other tb ->
  prun (mkPipe c0 [UConfig maps] y0 n0 [] []) pls p -> trace_wf (playbook pls) ->
  asks (seq_in c0) (received pls) rs ->
  Forall (writable src_obj srcj) (outq (p_sys p)) ->
  drained p \/
  (pending (p_sys p) <> [] /\ has_strategy (p_sys p) = false) \/
  nth_error (outq (p_sys p)) (p_sent p) = Some None \/
  exists l p', In l [QForward; QReceive; QPlaybook LUnblock; QSend; QDeliver] /\ pstep p l = Some p'.
Proof.
  intros ls0 y0 n0 maps c0 pls p rs W0 R0 L0 IB OB HN R WP A HW.
  pose proof (@run_sinv py_int py_repr type_name tmpl tmpl_args err_text parse_repl ls0 y0 W0 R0) as S0.
  pose proof (@run_ack py_int py_repr type_name tmpl tmpl_args err_text parse_repl ls0 sys_init y0 sinv_init W0 R0 (Forall_nil _)) as A0.
  rewrite <- (app_nil_r (received pls)) in A.
  destruct (way_in IB R WP _ A) as (ls & rs1 & rs2 & i1 & i2 & E & RU & W & FP & AS & _ & NU & F1 & F2).
  destruct (way_out IB OB S0 A0 L0 HN R WP _ A HW) as (os & more & O & _ & SH & PS & SK & LE).
  pose proof (@run_ack py_int py_repr type_name tmpl tmpl_args err_text parse_repl ls y0 (p_sys p) S0 W RU A0) as A2.
  assert (HX : forall l p', In l [QForward; QReceive; QPlaybook LUnblock; QSend; QDeliver] -> pstep p l = Some p' ->
    drained p \/ (pending (p_sys p) <> [] /\ has_strategy (p_sys p) = false) \/ nth_error (outq (p_sys p)) (p_sent p) = Some None \/ exists l p', In l [QForward; QReceive; QPlaybook LUnblock; QSend; QDeliver] /\ pstep p l = Some p') by eauto 10.
  destruct (asks_next code _ _ AS) as [(_ & N)|(r & rs2' & b & v & _ & _ & N & FW & _)].
  2: { eapply (HX QForward); [cbn; tauto|]. cbn [PipeModel.pstep]. rewrite N, FW. reflexivity. }
  destruct (N eq_refl) as (IE & _). clear N.
  destruct (p_down p) as [|o d] eqn:PD.
  2: { assert (IN : In (Some o) (outq (p_sys p))).
       { rewrite <- (firstn_skipn n0 (outq (p_sys p))). apply in_or_app. right. rewrite SK. apply in_or_app. left. apply in_map. apply in_or_app. right. left. reflexivity. }
       assert (F : fine src_obj srcj o).
       { rewrite Forall_forall in A2, HW. specialize (A2 _ IN). specialize (HW _ IN). split; [exact A2|exact HW]. }
       destruct (deliver_one (p_conn p) HN F O) as (pl & j & D & _). eapply (HX QDeliver); [cbn; tauto|]. cbn [PipeModel.pstep]. rewrite PD, D. reflexivity. }
  destruct (nth_error (outq (p_sys p)) (p_sent p)) as [[o|]|] eqn:NE; [| |].
  - eapply (HX QSend); [cbn; tauto|]. cbn [PipeModel.pstep]. rewrite NE. reflexivity.
  - auto.
  - apply nth_error_None in NE. assert (SN : p_sent p = length (outq (p_sys p))).
    { apply (f_equal (@length _)) in SK. rewrite skipn_length, app_length, map_length, app_length in SK. cbn [length] in *. lia. }
    destruct (y_recv (p_sys p)) as [(q, r)|] eqn:RV.
    + destruct (has_strategy (p_sys p)) eqn:HS; [|right; left; split; [unfold pending; rewrite RV; discriminate|reflexivity]].
      eapply (HX (QPlaybook LUnblock)); [cbn; tauto|]. cbn [PipeModel.pstep is_playbook SysModel.step]. rewrite RV, HS. reflexivity.
    + destruct (p_up p) as [|[m|v] u] eqn:PU.
      * left. unfold drained. auto.
      * eapply (HX QReceive); [cbn; tauto|]. cbn [PipeModel.pstep]. rewrite PU. cbn [SysModel.step]. rewrite RV. reflexivity.
      * inversion F2 as [|? i ? i2' C F2']; subst. destruct i as [m'|q' r']; [contradiction|]. destruct C as (r0 & C1 & C2 & C3).
        destruct (step (p_sys p) (LReq q' r0)) as [y|] eqn:ST.
        -- eapply (HX QReceive); [cbn; tauto|]. cbn [PipeModel.pstep]. rewrite PU, C1, ST. reflexivity.
        -- exfalso. cbn [SysModel.step] in ST. rewrite RV in ST. destruct (needs_strategy r0 && _); discriminate.
Qed.
End P.
Print Assumptions C71_session.
Print Assumptions C71_answered.
Print Assumptions C71_progress.
