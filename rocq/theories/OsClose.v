(** C73: stopping a queue closes its sockets; the witnesses of C72 and C73. *)
From Verif Require Import PyBase OsModel OsSpec OsProofs OsProps.
Set Implicit Arguments.
Local Open Scope N_scope.

Definition T (os : OS) : Prop := True.
(** The queue holds [h], and only the sockets in [l] may be open. *)
Definition holds (h : option nat) (l : list nat) (os : OS) : Prop := o_held os = h /\ open_only l os.
Lemma holds_others h l os os' : holds h l os -> others os os' -> holds h l os'.
Proof. intros [H1 H2] (_ & E & Eh & _). split; [congruence|]. eapply open_eq; eauto. Qed.
Lemma holds_incl h l l' os : holds h l os -> incl l l' -> holds h l' os.
Proof. intros [H1 H2] Hi. split; auto. eapply open_weaken; eauto. Qed.

(** One call at a time. *)
Lemma wp_new (c : call) h l os (Q : outcome nat -> OS -> Prop) :
  c = CSocket \/ c = CCreateServer \/ (exists fd, c = CAccept fd) ->
  holds h l os ->
  (forall fd os', holds h (fd :: l) os' -> Q (ORet fd) os') ->
  (forall e os', holds h l os' -> Q (ORaise e) os') ->
  wp T Q (get_fd c) os.
Proof.
  intros Hc H Hret Hraise. cbn [wp get_fd]. split; [exact Logic.I|]. intros os1 r os2 Ho Hs.
  assert (H1 : holds h l os1) by (eapply holds_others; eauto).
  assert (Hcase : (exists fd, r = RFd fd /\ os2 = with_socks os1 (o_socks os1 ++ [mkSock rwx_all true]) /\ fd = length (o_socks os1))
                  \/ (exists e, r = RErr e /\ os2 = os1)).
  { destruct Hc as [->|[->|[x ->]]]; answer r Hs;
      try (right; eexists; split; [reflexivity|]; done_with Hs; reflexivity);
      (left; eexists; split; [reflexivity|]; destruct (Nat.eqb_spec fd (length (o_socks os1))) as [Efd|]; [|discriminate Hs];
       done_with Hs; split; [reflexivity|exact Efd]). }
  destruct Hcase as [(fd & -> & -> & ->)|(e & -> & ->)]; cbn [wp]; (split; [exact Logic.I|]).
  - apply Hret. destruct H1 as [E Ho1]. split; [exact E|]. apply open_new; auto.
  - apply Hraise; auto.
Qed.
(** A call that changes neither the sockets nor the attribute. *)
Definition neutral (c : call) : Prop :=
  match c with
  | CListen _ | CConnect _ | CSend _ | CRecv _ | CShutdown _ | CUnlink _ | CBind _ _ | CWrite _ | COther | CTls _ => True
  | _ => False
  end.
Lemma wp_neutral (c : call) h l os (Q : outcome unit -> OS -> Prop) :
  neutral c -> holds h l os ->
  (forall os', holds h l os' -> Q (ORet tt) os') ->
  (forall e os', holds h l os' -> Q (ORaise e) os') ->
  wp T Q (act c) os.
Proof.
  intros Hc H Hret Hraise. cbn [wp act]. split; [exact Logic.I|]. intros os1 r os2 Ho Hs.
  assert (H1 : holds h l os1) by (eapply holds_others; eauto).
  assert (H2 : holds h l os2).
  { destruct c; try contradiction Hc; answer r Hs; try (done_with Hs; exact H1).
    - destruct (o_files os1 path); [discriminate|]. destruct (nth_error _ _); [|discriminate]. done_with Hs. exact H1.
    - done_with Hs. destruct H1 as [E Ho1]. split; [exact E|]. eapply open_close; eauto.
    - destruct (o_files os1 path); done_with Hs; exact H1. }
  destruct r; cbn [wp]; (split; [exact Logic.I|]); auto.
Qed.
Lemma wp_close fd h l l' os (Q : outcome unit -> OS -> Prop) :
  holds h l os -> (forall n, In n l -> n <> fd -> In n l') ->
  (forall os', holds h l' os' -> Q (ORet tt) os') ->
  wp T Q (act (CClose fd)) os.
Proof.
  intros H Hl Hret. cbn [wp act]. split; [exact Logic.I|]. intros os1 r os2 Ho Hs.
  assert (H1 : holds h l os1) by (eapply holds_others; eauto).
  answer r Hs. done_with Hs. cbn [wp]. split; [exact Logic.I|]. apply Hret. destruct H1 as [E Ho1]. split; [exact E|]. eapply open_close; eauto.
Qed.
Lemma wp_set fd h l os (Q : outcome unit -> OS -> Prop) :
  holds h l os -> (forall os', holds (Some fd) l os' -> Q (ORet tt) os') -> wp T Q (act (CSet fd)) os.
Proof.
  intros H Hret. cbn [wp act]. split; [exact Logic.I|]. intros os1 r os2 Ho Hs.
  assert (H1 : holds h l os1) by (eapply holds_others; eauto).
  answer r Hs. done_with Hs. cbn [wp]. split; [exact Logic.I|]. apply Hret. destruct H1 as [E Ho1]. split; [reflexivity|exact Ho1].
Qed.
Lemma wp_get h l os (Q : outcome nat -> OS -> Prop) :
  holds (Some h) l os -> (forall os', holds (Some h) l os' -> Q (ORet h) os') -> wp T Q (get_fd CGet) os.
Proof.
  intros H Hret. cbn [wp get_fd]. split; [exact Logic.I|]. intros os1 r os2 Ho Hs.
  assert (H1 : holds (Some h) l os1) by (eapply holds_others; eauto).
  answer r Hs. destruct H1 as [E Ho1]. rewrite E in Hs. destruct (Nat.eqb_spec fd h) as [->|]; [|discriminate]. done_with Hs.
  cbn [wp]. split; [exact Logic.I|]. apply Hret. split; auto.
Qed.
Lemma wp_ret {A} (a : A) os (Q : outcome A -> OS -> Prop) : Q (ORet a) os -> wp T Q (Ret a) os.
Proof. intros H. cbn [wp]. split; [exact Logic.I|exact H]. Qed.
Lemma wp_raise {A} e os (Q : outcome A -> OS -> Prop) : Q (ORaise e) os -> wp T Q (Raise e) os.
Proof. intros H. cbn [wp]. split; [exact Logic.I|exact H]. Qed.
Lemma neutral_close_tls conn h l os (Q : outcome unit -> OS -> Prop) :
  holds h l os ->
  (forall os', holds h l os' -> Q (ORet tt) os') ->
  (forall e os', holds h l os' -> Q (ORaise e) os') ->
  wp T Q (act (CTls conn)) os.
Proof. apply wp_neutral. exact Logic.I. Qed.

(** ** The pieces *)
Lemma uds_open p mask h l os (Q : outcome nat -> OS -> Prop) :
  holds h l os ->
  (forall fd os', holds h (fd :: l) os' -> Q (ORet fd) os') ->
  (forall e os', Q (ORaise e) os') ->
  wp T Q (create_uds_with_mask p mask) os.
Proof.
  intros H Hret Hraise. unfold create_uds_with_mask. apply wp_bind. eapply wp_new; [auto|exact H| |intros; apply Hraise].
  intros fd os1 H1. apply wp_bind. cbn [wp prepare]. split; [exact Logic.I|]. intros os2 r os3 Ho Hs.
  assert (H2 : holds h (fd :: l) os2) by (eapply holds_others; eauto).
  (* bind, whatever has to be restored *)
  assert (Hbind : forall om os', holds h (fd :: l) os' ->
    wp T Q (_ <~ finally (act (CBind fd p)) (match om with Some m => _ <~ set_umask m; Ret tt | None => Ret tt end); Ret fd) os').
  { intros om os' H'. apply wp_bind. apply wp_finally.
    assert (Hfin : forall (o : outcome unit) os'', holds h (fd :: l) os'' ->
      wp T (fun o' os4 => match o' with
         | ORet _ => match o with ORet _ => wp T Q (Ret fd) os4 | ORaise e => Q (ORaise e) os4 end
         | ORaise e => Q (ORaise e) os4 end)
         (match om with Some m => _ <~ set_umask m; Ret tt | None => Ret tt end) os'').
    { intros o os'' H''. destruct om as [m|].
      - cbn [wp pbind set_umask]. split; [exact Logic.I|]. intros os4 r4 os5 Ho4 Hs4.
        assert (H4 : holds h (fd :: l) os4) by (eapply holds_others; eauto).
        answer r4 Hs4. destruct (N.eqb _ _); [|discriminate]. done_with Hs4. cbn [pbind wp]. split; [exact Logic.I|].
        destruct o; [|apply Hraise]. split; [exact Logic.I|]. apply Hret. exact H4.
      - cbn [wp]. split; [exact Logic.I|]. destruct o; [|apply Hraise]. split; [exact Logic.I|]. apply Hret. exact H''. }
    eapply wp_neutral; [exact Logic.I|exact H'| |].
    - intros os'' H''. exact (Hfin (ORet tt) os'' H'').
    - intros e os'' H''. exact (Hfin (ORaise e) os'' H''). }
  answer r Hs.
  - done_with Hs. cbn [wp]. split; [exact Logic.I|]. apply (Hbind None). destruct H2 as [E Ho2]. split; [exact E|].
    intros n x Hx Hop. cbn [with_socks o_socks] in Hx. apply nth_set in Hx as (y & Hy & ->).
    destruct (Nat.eqb n fd); cbn [s_open] in Hop; eapply Ho2; eauto.
  - done_with Hs. cbn [pbind set_umask wp]. split; [exact Logic.I|]. intros os4 r4 os5 Ho4 Hs4.
    assert (H4 : holds h (fd :: l) os4) by (eapply holds_others; eauto).
    answer r4 Hs4. destruct (N.eqb _ _); [|discriminate]. done_with Hs4. cbn [pbind wp]. split; [exact Logic.I|].
    apply (Hbind (Some n)). exact H4.
  - done_with Hs. cbn [wp]. split; [exact Logic.I|]. apply Hraise.
Qed.
Lemma init_open a h os (Q : outcome unit -> OS -> Prop) :
  holds h [] os ->
  (forall fd os', holds (Some fd) [fd] os' -> Q (ORet tt) os') ->
  (forall e os', Q (ORaise e) os') ->
  wp T Q (server_init a) os.
Proof.
  intros H Hret Hraise. unfold server_init. apply wp_bind.
  assert (Hrest : forall fd os', holds h [fd] os' -> wp T Q (_ <~ act (CSet fd); act COther) os').
  { intros fd os' H'. apply wp_bind. eapply wp_set; [exact H'|]. intros os2 H2. eapply wp_neutral; [exact Logic.I|exact H2| |]; intros; eauto. }
  destruct a as [p|].
  - apply wp_bind. eapply uds_open; [exact H| |intros; apply Hraise]. intros fd os1 H1.
    apply wp_bind. eapply wp_neutral; [exact Logic.I|exact H1| |intros; apply Hraise]. intros os2 H2. apply wp_ret. apply Hrest. exact H2.
  - eapply wp_new; [auto|exact H| |intros; apply Hraise]. intros fd os1 H1. apply Hrest. exact H1.
Qed.
Lemma handshakes_open n server : forall conn h os (Q : outcome nat -> OS -> Prop),
  holds h [conn; server] os ->
  (forall c os', holds h [c; server] os' -> Q (ORet c) os') ->
  (forall c e os', holds h [c; server] os' -> Q (ORaise e) os') ->
  wp T Q (handshakes n server conn) os.
Proof.
  induction n as [|n IH]; intros conn h os Q H Hret Hraise; [cbn [handshakes wp]; split; exact Logic.I|].
  cbn [handshakes]. apply wp_catch.
  assert (Hagain : forall e os', holds h [conn; server] os' ->
    match (match e with SSLError => Some (_ <~ act (CClose conn); conn' <~ get_fd (CAccept server); handshakes n server conn') | _ => None end) with
    | Some q => wp T Q q os' | None => Q (ORaise e) os' end).
  { intros e os' H'. destruct e; try (eapply Hraise; exact H').
    apply wp_bind. eapply wp_close with (l' := [server]); [exact H'| |].
    { intros m [->|[->|[]]] Hm; [contradiction|left; auto]. }
    intros os2 H2. apply wp_bind. eapply wp_new; [right; right; eauto|exact H2| |].
    - intros c os3 H3. eapply IH; eauto.
    - intros e os3 H3. apply (Hraise server). eapply holds_incl; [exact H3|]. intros m [->|[]]; left; auto. }
  apply wp_bind. eapply neutral_close_tls; [exact H| |exact Hagain]. intros os1 H1.
  apply wp_bind. eapply wp_neutral; [exact Logic.I|exact H1| |exact Hagain]. intros os2 H2. apply wp_ret. eapply Hret; eauto.
Qed.
Lemma start_open n tls h os (Q : outcome unit -> OS -> Prop) :
  holds (Some h) [h] os ->
  (forall c os', holds (Some c) [c] os' -> Q (ORet tt) os') ->
  (forall h' c e os', holds (Some h') [c; h'] os' -> Q (ORaise e) os') ->
  wp T Q (server_start n tls) os.
Proof.
  intros H Hret Hraise. unfold server_start. apply wp_bind. eapply wp_get; [exact H|]. intros os1 H1.
  apply wp_bind. eapply wp_new; [right; right; eauto|exact H1| |].
  2: { intros e os2 H2. apply (Hraise h h). eapply holds_incl; [exact H2|]. intros m [->|[]]; left; auto. }
  intros conn os2 H2. apply wp_bind.
  assert (Hrest : forall c os', holds (Some h) [c; h] os' -> wp T Q (_ <~ act (CClose h); _ <~ act (CSet c); act COther) os').
  { intros c os' H'. apply wp_bind. eapply wp_close with (l' := [c]); [exact H'| |].
    { intros m [->|[->|[]]] Hm; [left; auto|contradiction]. }
    intros os3 H3. apply wp_bind. eapply wp_set; [exact H3|]. intros os4 H4.
    eapply wp_neutral; [exact Logic.I|exact H4| |].
    - intros os5 H5. eapply Hret; eauto.
    - intros e os5 H5. apply (Hraise c c). eapply holds_incl; [exact H5|]. intros m [->|[]]; left; auto. }
  destruct tls.
  - eapply handshakes_open; [exact H2| |]; intros; eauto.
  - apply wp_bind. eapply wp_neutral; [exact Logic.I|exact H2| |]; intros.
    + apply wp_ret. apply Hrest. auto. + eapply Hraise; eauto.
Qed.
Lemma queue_stop_open h l l' os (Q : outcome unit -> OS -> Prop) :
  holds (Some h) l os -> (forall n, In n l -> n <> h -> In n l') ->
  (forall os', holds (Some h) l' os' -> Q (ORet tt) os') ->
  (forall e os', Q (ORaise e) os') ->
  wp T Q queue_stop os.
Proof.
  intros H Hl Hret Hraise. unfold queue_stop. apply wp_bind. eapply wp_neutral; [exact Logic.I|exact H| |intros; apply Hraise].
  intros os1 H1. apply wp_bind. eapply wp_get; [exact H1|]. intros os2 H2. apply wp_bind. apply wp_catch.
  assert (Hc : forall os', holds (Some h) l os' -> wp T Q (act (CClose h)) os').
  { intros os' H'. eapply wp_close; [exact H'|exact Hl|exact Hret]. }
  eapply wp_neutral; [exact Logic.I|exact H2| |].
  - intros os3 H3. apply Hc. exact H3.
  - intros e os3 H3. destruct e; try apply Hraise; apply wp_ret; apply Hc; exact H3.
Qed.
Lemma stop_open a h l l' os (Q : outcome unit -> OS -> Prop) :
  holds (Some h) l os -> (forall n, In n l -> n <> h -> In n l') ->
  (forall os', holds (Some h) l' os' -> Q (ORet tt) os') ->
  (forall e os', Q (ORaise e) os') ->
  wp T Q (server_stop a) os.
Proof.
  intros H Hl Hret Hraise. unfold server_stop. apply wp_bind. destruct (uds_path a).
  - eapply wp_neutral; [exact Logic.I|exact H| |intros; apply Hraise]. intros os1 H1. eapply queue_stop_open; eauto.
  - apply wp_ret. eapply queue_stop_open; eauto.
Qed.

Definition closed_outcome (l : list nat) (o : outcome unit) (os : OS) : Prop :=
  match o with ORet _ => open_only l os | ORaise _ => True end.
Lemma closed_stable l o os os' : closed_outcome l o os -> others os os' -> closed_outcome l o os'.
Proof. intros H (_ & E & _). destruct o; cbn in *; auto. eapply open_eq; eauto. Qed.

(** C73: a server queue that was constructed, connected and stopped has closed every socket
    it opened: the listening one, the accepted one and all those whose TLS handshake
    failed. *)
Theorem C73_server_closes : forall tries tls a os0 os,
  open_only [] os0 ->
  reach os0 (_ <~ server_init a; _ <~ server_start tries tls; server_stop a) os (Ret tt) ->
  open_only [] os.
Proof.
  intros tries tls a os0 os H0 R.
  assert (W : wp T (closed_outcome []) (_ <~ server_init a; _ <~ server_start tries tls; server_stop a) os0).
  { apply wp_bind. eapply init_open with (h := o_held os0); [split; auto| |intros; exact Logic.I].
    intros fd os1 H1. apply wp_bind. eapply start_open; [exact H1| |intros; exact Logic.I].
    intros c os2 H2. eapply stop_open with (l' := []); [exact H2| | |intros; exact Logic.I].
    - intros n [->|[]] Hn. contradiction.
    - intros os3 [_ H3]. exact H3. }
  eapply wp_sound in W; [|intros; exact Logic.I|intros ? ? ? H Ho; exact (@closed_stable _ _ _ _ H Ho)|exact R].
  destruct W as [_ W]. exact W.
Qed.
Print Assumptions C73_server_closes.

(** When the start may fail (the listening debuggee stops its queue in any case), at most
    one socket is left open once the debuggee has ended normally.  Missing: that none is. *)
Theorem C73_listening_partial : forall tries tls a pid os0 os,
  open_only [] os0 ->
  reach os0 (listening tries tls a pid) os (Ret tt) ->
  exists fd, open_only [fd] os.
Proof.
  intros tries tls a pid os0 os H0 R.
  assert (W : wp T (fun o os => match o with ORet _ => exists fd, open_only [fd] os | ORaise _ => True end) (listening tries tls a pid) os0).
  { unfold listening. apply wp_bind. eapply init_open with (h := o_held os0); [split; auto| |intros; exact Logic.I].
    intros fd os1 H1. apply wp_bind. unfold write_process_file. eapply wp_neutral; [exact Logic.I|exact H1| |intros; exact Logic.I].
    intros os2 H2. apply wp_finally. apply wp_catch.
    assert (Hstop : forall h c os', holds (Some h) [c; h] os' ->
      wp T (fun o' os'' => match o' with ORet _ => exists fd0, open_only [fd0] os'' | ORaise _ => True end) (server_stop a) os').
    { intros h c os' H'. eapply stop_open with (l' := [c]); [exact H'| | |intros; exact Logic.I].
      - intros n [->|[->|[]]] Hn; [left; auto|contradiction].
      - intros os3 [_ H3]. eauto. }
    apply wp_bind. eapply start_open; [exact H2| |].
    - intros c os3 H3. assert (Hi : forall os', holds (Some c) [c] os' -> holds (Some c) [c; c] os').
      { intros os' H'. eapply holds_incl; [exact H'|]. intros m [->|[]]; left; auto. }
      eapply wp_neutral; [exact Logic.I|exact H3| |].
      + intros os4 H4. eapply wp_mono; [|eapply (Hstop c c); eauto]. intros [x|e] os5 _ H5; auto.
      + intros e os4 H4. apply wp_ret. eapply wp_mono; [|eapply (Hstop c c); eauto]. intros [x|e'] os5 _ H5; auto.
    - intros h' c e os3 H3. apply wp_ret. eapply wp_mono; [|eapply Hstop; eauto]. intros [x|e'] os5 _ H5; auto. }
  eapply wp_sound in W; [|intros; exact Logic.I| |exact R].
  - destruct W as [_ W]. exact W.
  - intros [x|e] o1 o2 H (_ & E & _); auto. destruct H as [fd H]. exists fd. eapply open_eq; eauto.
Qed.
Print Assumptions C73_listening_partial.

(** ** The connecting side *)
Lemma connect_open n : forall err h l os (Q : outcome nat -> OS -> Prop),
  holds h l os ->
  (forall fd os', holds h (fd :: l) os' -> Q (ORet fd) os') ->
  (forall fd e os', holds h (fd :: l) os' -> Q (ORaise e) os') ->
  wp T Q (connect_loop n err) os.
Proof.
  induction n as [|n IH]; intros err h l os Q H Hret Hraise; cbn [connect_loop].
  - apply wp_raise. apply (Hraise 0%nat). eapply holds_incl; [exact H|]. apply incl_tl, incl_refl.
  - assert (Hre : forall e os', holds h l os' -> Q (ORaise e) os').
    { intros e os' H'. apply (Hraise 0%nat). eapply holds_incl; [exact H'|]. apply incl_tl, incl_refl. }
    apply wp_bind. eapply wp_new; [auto|exact H| |exact Hre]. intros fd os1 H1.
    apply wp_bind. apply wp_catch.
    assert (Hclose : forall e os', holds h (fd :: l) os' ->
      wp T (fun o os'' => match o with ORet r => wp T Q (match r with None => Ret fd | Some e0 => connect_loop n e0 end) os''
                                     | ORaise e0 => Q (ORaise e0) os'' end) (_ <~ act (CClose fd); Ret (Some e)) os').
    { intros e os' H'. apply wp_bind. eapply wp_close with (l' := l); [exact H'| |].
      - intros m [->|Hm] Hne; [contradiction|exact Hm].
      - intros os2 H2. apply wp_ret. eapply IH; eauto. }
    apply wp_bind. eapply wp_neutral; [exact Logic.I|exact H1| |].
    + intros os2 H2. apply wp_ret. apply wp_ret. apply Hret. exact H2.
    + intros e os2 H2. destruct e; try (eapply Hraise; exact H2); apply Hclose; exact H2.
Qed.
(** C73 for the connecting side: once its queue is stopped at most one of its sockets is
    open, whether or not the start succeeded.  Missing: that none is. *)
Theorem C73_client_partial : forall n tls os0 os,
  open_only [] os0 ->
  reach os0 (_ <~ client_init; _ <~ catch (client_start n tls) (fun _ => Some (Ret tt)); queue_stop) os (Ret tt) ->
  exists fd, open_only [fd] os.
Proof.
  intros n tls os0 os H0 R.
  assert (W : wp T (fun o os => match o with ORet _ => exists fd, open_only [fd] os | ORaise _ => True end)
                (_ <~ client_init; _ <~ catch (client_start n tls) (fun _ => Some (Ret tt)); queue_stop) os0).
  { apply wp_bind. unfold client_init. apply wp_bind. eapply wp_new with (h := o_held os0) (l := []); [auto|split; auto| |intros; exact Logic.I].
    intros blank os1 H1. apply wp_bind. eapply wp_set; [exact H1|]. intros os2 H2.
    apply wp_bind. eapply wp_neutral; [exact Logic.I|exact H2| |intros; exact Logic.I]. intros os3 H3.
    eapply wp_neutral; [exact Logic.I|exact H3| |intros; exact Logic.I]. intros os4 H4.
    apply wp_bind. apply wp_catch.
    assert (Hstop : forall h c os', holds (Some h) [c; h] os' \/ holds (Some h) [h; c] os' ->
      wp T (fun o' os'' => match o' with ORet _ => exists fd0, open_only [fd0] os'' | ORaise _ => True end) queue_stop os').
    { intros h c os' H'. assert (H'' : holds (Some h) [c; h] os').
      { destruct H' as [H'|H']; auto. eapply holds_incl; [exact H'|]. intros m [->|[->|[]]]; cbn; auto. }
      eapply queue_stop_open with (l' := [c]); [exact H''| | |intros; exact Logic.I].
      - intros m [->|[->|[]]] Hm; [left; auto|contradiction].
      - intros os5 [_ H5]. eauto. }
    assert (H4' : forall os', holds (Some blank) [blank] os' -> holds (Some blank) [blank; blank] os').
    { intros os' H'. eapply holds_incl; [exact H'|]. intros m [->|[]]; left; auto. }
    unfold client_start. apply wp_bind. eapply wp_neutral; [exact Logic.I|exact H4| |].
    2: { intros e os5 H5. apply wp_ret. eapply (Hstop blank blank); eauto. }
    intros os5 H5. apply wp_bind. eapply connect_open; [exact H5| |].
    2: { intros fd e os6 H6. apply wp_ret. eapply (Hstop blank fd); eauto. }
    intros fd os6 H6. apply wp_bind. eapply wp_set; [exact H6|]. intros os7 H7. apply wp_bind.
    assert (Hrest : forall os', holds (Some fd) [fd; blank] os' ->
       wp T (fun o os'' => match o with
          | ORet _ => wp T (fun o' os3 => match o' with ORet _ => exists fd0, open_only [fd0] os3 | ORaise _ => True end) queue_stop os''
          | ORaise e => wp T (fun o0 os3 => match o0 with
               | ORet _ => wp T (fun o' os8 => match o' with ORet _ => exists fd0, open_only [fd0] os8 | ORaise _ => True end) queue_stop os3
               | ORaise _ => True end) (Ret tt) os''
          end) (_ <~ act (CRecv fd); act COther) os').
    { intros os' H'. apply wp_bind. eapply wp_neutral; [exact Logic.I|exact H'| |].
      2: { intros e os8 H8. apply wp_ret. eapply (Hstop fd blank); eauto. }
      intros os8 H8. eapply wp_neutral; [exact Logic.I|exact H8| |].
      - intros os9 H9. eapply (Hstop fd blank); eauto.
      - intros e os9 H9. apply wp_ret. eapply (Hstop fd blank); eauto. }
    destruct tls.
    - eapply wp_neutral; [exact Logic.I|exact H7| |].
      + intros os8 H8. apply Hrest. exact H8.
      + intros e os8 H8. apply wp_ret. eapply (Hstop fd blank); eauto.
    - apply wp_ret. apply Hrest. exact H7. }
  eapply wp_sound in W; [|intros; exact Logic.I| |exact R].
  - destruct W as [_ W]. exact W.
  - intros [x|e] o1 o2 H (_ & E & _); auto. destruct H as [fd H]. exists fd. eapply open_eq; eauto.
Qed.
Print Assumptions C73_client_partial.

(** ** Concrete runs *)
Fixpoint drive {A} (l : list answer) (os : OS) (p : prog A) : option (OS * prog A) :=
  match l with
  | [] => Some (os, p)
  | a :: r => match p with Call c k => match sys os c a with Some os' => drive r os' (k a) | None => None end | _ => None end
  end.
Lemma drive_reach {A} l os (p : prog A) os' q : drive l os p = Some (os', q) -> reach os p os' q.
Proof.
  revert os p; induction l as [|a l IH]; intros os p H; cbn [drive] in H.
  - apply some_inj in H. assert (os = os' /\ p = q) as [-> ->] by (split; congruence). constructor.
  - destruct p as [x|e| |c k]; try discriminate. destruct (sys os c a) as [os1|] eqn:E; [|discriminate].
    eapply Answered; [exact E|]. apply IH. exact H.
Qed.
(** A process with the usual umask 0o022 that has made no file and opened no socket. *)
Definition os_start : OS := mkOS 18 (fun _ => None) [] None.
Definition sockname : pystr := s "/tmp/ansibug-dap-1".
Definition pidname : pystr := s "/tmp/ansibug-pid-7".

(** C72's hypotheses are met, on both kinds of platform: the socket is made with mode 0o700
    and the umask is back. *)
Example C72_met : no_files os_start /\
  (exists os, reach os_start (server_init (Uds sockname)) os (Ret tt) /\
     o_files os sockname = Some (mkFile 448 true) /\ o_umask os = 18) /\
  (exists os, reach os_start (server_init (Uds sockname)) os (Ret tt) /\
     nth_error (o_socks os) 0 = Some (mkSock 511 true) /\
     o_files os sockname = Some (mkFile 448 true) /\ o_umask os = 18) /\
  (exists os p, reach os_start launch_script os (Ret p) /\ o_files os p = Some (mkFile 448 true)).
Proof.
  split; [intros p f H; discriminate|]. split; [|split].
  - eexists. split; [apply drive_reach with (l := [RFd 0; RUnit; RUnit; RUnit; RUnit; RUnit]); vm_compute; reflexivity|].
    split; vm_compute; reflexivity.
  - eexists. split; [apply drive_reach with (l := [RFd 0; REinval; RNum 18; RUnit; RNum 63; RUnit; RUnit; RUnit]); vm_compute; reflexivity|].
    repeat split; vm_compute; reflexivity.
  - eexists. exists (s "/tmp/ansibug-launch-x"). split; [apply drive_reach with (l := [RPath (s "/tmp/ansibug-launch-x"); RUnit; RUnit]); vm_compute; reflexivity|].
    vm_compute. reflexivity.
Qed.
(** A whole session with TLS, one client refused before the second is accepted. *)
Definition session_run : list answer :=
  [RFd 0; RUnit; RUnit; RUnit; RUnit; RUnit; RUnit;      (* init and the process file *)
   RFd 0; RFd 1; RGone SSLError; RUnit; RFd 2; RUnit; RUnit; RUnit; RUnit; RUnit; RUnit;
   RUnit; RUnit; RFd 2; RErr OSError; RUnit].
Example C72_session_met : exists os, reach os_start (listening 5 true (Uds sockname) pidname) os (Ret tt) /\
  o_files os sockname = None /\ o_files os pidname = Some (mkFile 420 true) /\ open_only [] os /\ length (o_socks os) = 3%nat.
Proof.
  eexists. split; [apply drive_reach with (l := session_run); vm_compute; reflexivity|].
  split; [vm_compute; reflexivity|]. split; [vm_compute; reflexivity|]. split; [|vm_compute; reflexivity].
  intros fd x Hx Ho. cbn in Hx. destruct fd as [|[|[|fd]]]; cbn in Hx;
    try (injection Hx as <-; discriminate Ho). destruct fd; discriminate.
Qed.
(** The full claim of C72 fails: with the usual umask the process file, which names the
    socket, can be read by everybody. *)
Theorem C72_process_file_refuted : exists os path f,
  reach os_start (listening 5 true (Uds sockname) pidname) os (Ret tt) /\
  o_files os path = Some f /\ f_mine f = true /\ ~ private f.
Proof.
  eexists. exists pidname. eexists. split; [apply drive_reach with (l := session_run); vm_compute; reflexivity|].
  split; [vm_compute; reflexivity|]. split; [reflexivity|]. vm_compute. discriminate.
Qed.
Print Assumptions C72_process_file_refuted.
(** ... and when listen() fails after bind() the constructor raises and the socket file stays. *)
Theorem C72_failed_listen_refuted : exists os e,
  reach os_start (server_init (Uds sockname)) os (Raise e) /\
  o_files os sockname = Some (mkFile 448 true) /\ ~ open_only [] os.
Proof.
  eexists. exists OSError. split; [apply drive_reach with (l := [RFd 0; RUnit; RUnit; RErr OSError]); vm_compute; reflexivity|].
  split; [vm_compute; reflexivity|]. intros H. exact (H 0%nat _ eq_refl eq_refl).
Qed.
Print Assumptions C72_failed_listen_refuted.

(** C73's full claim fails: a client that goes away before the server has sent its first
    byte leaves the accepted socket open after the debuggee has ended ... *)
Theorem C73_server_refuted : exists os,
  reach os_start (listening 5 false (Uds sockname) pidname) os (Ret tt) /\ ~ open_only [] os.
Proof.
  eexists. split; [apply drive_reach with (l :=
    [RFd 0; RUnit; RUnit; RUnit; RUnit; RUnit; RUnit; RFd 0; RFd 1; RErr OSError; RUnit; RUnit; RFd 0; RUnit; RUnit]); vm_compute; reflexivity|].
  intros H. exact (H 1%nat _ eq_refl eq_refl).
Qed.
Print Assumptions C73_server_refuted.
(** ... the client's first, unused socket is never closed, even when all goes well ... *)
Theorem C73_client_refuted : exists os,
  reach os_start (_ <~ client_init; _ <~ client_start 1 false; queue_stop) os (Ret tt) /\ ~ open_only [] os.
Proof.
  eexists. split; [apply drive_reach with (l :=
    [RFd 0; RUnit; RUnit; RUnit; RUnit; RFd 1; RUnit; RUnit; RUnit; RUnit; RUnit; RFd 1; RUnit; RUnit]); vm_compute; reflexivity|].
  intros H. exact (H 0%nat _ eq_refl eq_refl).
Qed.
Print Assumptions C73_client_refuted.
(** ... and when the socket file cannot be removed, stop() raises before it closes the
    connection. *)
Theorem C73_stop_refuted : exists os e,
  reach os_start (_ <~ server_init (Uds sockname); _ <~ server_start 5 false; server_stop (Uds sockname)) os (Raise e) /\
  o_held os = Some 1%nat /\ nth_error (o_socks os) 1 = Some (mkSock 511 true).
Proof.
  eexists. exists OSError. split; [apply drive_reach with (l :=
    [RFd 0; RUnit; RUnit; RUnit; RUnit; RUnit; RFd 0; RFd 1; RUnit; RUnit; RUnit; RUnit; RErr OSError]); vm_compute; reflexivity|].
  split; vm_compute; reflexivity.
Qed.
Print Assumptions C73_stop_refuted.
(** The runs C73's theorems speak about exist: with TLS and one refused client, and for the
    connecting side with a first address that fails. *)
Example C73_met :
  open_only [] os_start /\
  (exists os, reach os_start (_ <~ server_init (Uds sockname); _ <~ server_start 5 true; server_stop (Uds sockname)) os (Ret tt) /\ length (o_socks os) = 3%nat) /\
  (exists os, reach os_start (_ <~ client_init; _ <~ catch (client_start 2 true) (fun _ => Some (Ret tt)); queue_stop) os (Ret tt) /\ length (o_socks os) = 3%nat).
Proof.
  split; [intros [|fd] x H; discriminate|]. split.
  - eexists. split; [apply drive_reach with (l :=
      [RFd 0; RUnit; RUnit; RUnit; RUnit; RUnit; RFd 0; RFd 1; RErr SSLError; RUnit; RFd 2; RUnit; RUnit; RUnit; RUnit; RUnit;
       RUnit; RUnit; RFd 2; RUnit; RUnit]); vm_compute; reflexivity|]. vm_compute. reflexivity.
  - eexists. split; [apply drive_reach with (l :=
      [RFd 0; RUnit; RUnit; RUnit; RUnit; RFd 1; RErr TimeoutError; RUnit; RFd 2; RUnit; RUnit; RUnit; RUnit; RUnit; RUnit; RFd 2; RUnit; RUnit]);
      vm_compute; reflexivity|]. vm_compute. reflexivity.
Qed.
