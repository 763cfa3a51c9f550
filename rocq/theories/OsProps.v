(** C72: only the user can reach the sockets and scripts ansibug makes; C73: stopping a
    queue closes its sockets. *)
From Verif Require Import PyBase OsModel OsSpec OsProofs.
Set Implicit Arguments.
Local Open Scope N_scope.

(** ** Bits *)
Lemma land_ldiff a u b : N.land (N.ldiff a u) b = N.ldiff (N.land a b) u.
Proof.
  apply N.bits_inj. intros n. rewrite N.land_spec, !N.ldiff_spec, N.land_spec.
  destruct (N.testbit a n), (N.testbit u n), (N.testbit b n); reflexivity.
Qed.
Lemma ldiff_disjoint a u : N.land u a = 0 -> N.ldiff a u = a.
Proof.
  intros H. apply N.bits_inj. intros n. rewrite N.ldiff_spec.
  assert (Hn : N.testbit (N.land u a) n = false) by (rewrite H; apply N.bits_0).
  rewrite N.land_spec in Hn. destruct (N.testbit a n), (N.testbit u n); cbn in *; congruence.
Qed.

(** ** Sockets *)
Lemma nth_set_same fd g l x : nth_error l fd = Some x -> nth_error (set_nth fd g l) fd = Some (g x).
Proof. revert fd; induction l as [|y l IH]; intros [|fd] H; cbn in *; try discriminate; [now injection H as ->|auto]. Qed.
Lemma nth_set fd g l n x :
  nth_error (set_nth fd g l) n = Some x ->
  exists y, nth_error l n = Some y /\ x = if Nat.eqb n fd then g y else y.
Proof.
  revert fd n; induction l as [|y l IH]; intros [|fd] [|n] H; cbn in *; try discriminate;
    try (injection H as <-); eauto.
Qed.
Lemma open_new l os x : open_only l os -> open_only (length (o_socks os) :: l) (with_socks os (o_socks os ++ [x])).
Proof.
  intros H fd y Hy Ho. cbn [with_socks o_socks] in Hy.
  destruct (Nat.lt_ge_cases fd (length (o_socks os))) as [L|L].
  - rewrite nth_error_app1 in Hy by auto. right. eapply H; eauto.
  - left. assert (fd < length (o_socks os ++ [x]))%nat by (apply nth_error_Some; congruence).
    rewrite app_length in *. cbn in *. lia.
Qed.
Lemma open_close l l' fd os : open_only l os -> (forall n, In n l -> n <> fd -> In n l') -> open_only l' (close_fd os fd).
Proof.
  intros H Hl n x Hx Ho. cbn [close_fd with_socks o_socks] in Hx. apply nth_set in Hx as (y & Hy & ->).
  destruct (Nat.eqb n fd) eqn:E; [discriminate|]. apply Nat.eqb_neq in E. apply Hl; auto. eapply H; eauto.
Qed.
Lemma open_weaken l l' os : open_only l os -> incl l l' -> open_only l' os.
Proof. intros H Hi n x Hx Ho. apply Hi. eapply H; eauto. Qed.
Lemma open_eq l os os' : o_socks os' = o_socks os -> open_only l os -> open_only l os'.
Proof. intros E H n x. rewrite E. apply H. Qed.

(** ** Making the socket *)
Definition ours_at (a : address) (u : N) (os : OS) : Prop :=
  forall path f, o_files os path = Some f -> f_mine f = true ->
    a = Uds path /\ (f_mode f = N.ldiff 448 u \/ f_mode f = 448).
Lemma ours_others a u os os' : ours_at a u os -> others os os' -> ours_at a u os'.
Proof. intros H (_ & _ & _ & Hf) p f Hp Hm. eapply H; eauto. Qed.
Lemma ours_files a u os os' : o_files os' = o_files os -> ours_at a u os -> ours_at a u os'.
Proof. intros E H p f. rewrite E. apply H. Qed.
Lemma put_same fs p f : put fs p f p = f.
Proof. unfold put. now rewrite (proj2 (list_eqb_eq _ _) eq_refl). Qed.
Lemma put_spec fs p f q : (q = p /\ put fs p f q = f) \/ (q <> p /\ put fs p f q = fs q).
Proof.
  unfold put. destruct (list_eqb q p) eqn:E.
  - left. split; auto. now apply list_eqb_eq.
  - right. split; auto. intros ->. rewrite (proj2 (list_eqb_eq _ _) eq_refl) in E. discriminate.
Qed.

Ltac answer a Hs := destruct a; cbn [sys] in Hs; try discriminate Hs.
Lemma some_inj {A} (x y : A) : Some x = Some y -> x = y.
Proof. congruence. Qed.
Ltac done_with Hs := apply some_inj in Hs; match type of Hs with _ = ?x => subst x end.
(** The rest of [os1] that [others] keeps. *)
Ltac use_others Ho := let e1 := fresh "Eu" in let e2 := fresh "Es" in let e3 := fresh "Eh" in let e4 := fresh "Ef" in
  pose proof Ho as (e1 & e2 & e3 & e4).

(** The proof of [server_init]: the file appears at bind with one of the two modes, the
    umask is back at the end. *)
Lemma init_wp a os0 :
  no_files os0 ->
  wp (ours_at a (o_umask os0)) (fun _ os => o_umask os = o_umask os0) (server_init a) os0.
Proof.
  intros H0. assert (HI : ours_at a (o_umask os0) os0).
  { intros p f Hp Hm. apply H0 in Hp. congruence. }
  (* the calls after the socket exists *)
  assert (Hrest : forall os fd, ours_at a (o_umask os0) os -> o_umask os = o_umask os0 ->
     wp (ours_at a (o_umask os0)) (fun _ os => o_umask os = o_umask os0) (_ <~ act (CSet fd); act COther) os).
  { intros os fd H Hu. cbn [wp pbind act]. split; auto. intros os1 r os2 Ho Hs. use_others Ho.
    answer r Hs. done_with Hs. cbn [pbind wp]. split.
    { eapply ours_files; [|eapply ours_others; eauto]. reflexivity. }
    intros os3 r os4 Ho' Hs'. use_others Ho'. assert (ours_at a (o_umask os0) os3).
    { eapply ours_others; [|exact Ho']. eapply ours_files; [|eapply ours_others; eauto]. reflexivity. }
    answer r Hs'; done_with Hs'; cbn [wp]; (split; [assumption|]); cbn [with_held o_umask] in *; congruence. }
  unfold server_init. apply wp_bind. destruct a as [p|].
  - apply wp_bind. unfold create_uds_with_mask. apply wp_bind. cbn [wp get_fd]. split; auto.
    intros os1 r os2 Ho Hs. use_others Ho.
    assert (HI1 : ours_at (Uds p) (o_umask os0) os1) by (eapply ours_others; eauto).
    answer r Hs; [|done_with Hs; cbn [wp]; split; auto].
    destruct (Nat.eqb_spec fd (length (o_socks os1))) as [->|]; [|discriminate]. done_with Hs.
    set (fd := length (o_socks os1)). cbn [wp]. split; [exact HI1|].
    (* fchmod *)
    apply wp_bind. cbn [wp prepare]. split; [exact HI1|]. clear Ho.
    intros os3 r os4 Ho Hs. assert (HI3 : ours_at (Uds p) (o_umask os0) os3) by (eapply ours_others; [|exact Ho]; exact HI1).
    use_others Ho. cbn [with_socks o_umask o_socks o_held o_files] in *.
    assert (Hfd : nth_error (o_socks os3) fd = Some (mkSock rwx_all true)).
    { rewrite Es0. unfold fd. rewrite nth_error_app2, Nat.sub_diag by lia. reflexivity. }
    (* bind and the end, for a given state of the umask *)
    assert (Hbind : forall om os m, ours_at (Uds p) (o_umask os0) os -> nth_error (o_socks os) fd = Some (mkSock m true) ->
       (N.ldiff m (o_umask os) = N.ldiff 448 (o_umask os0) \/ N.ldiff m (o_umask os) = 448) ->
       match om with Some old => old = o_umask os0 | None => o_umask os = o_umask os0 end ->
       wp (ours_at (Uds p) (o_umask os0))
         (fun o os' => match o with
            | ORet _ => wp (ours_at (Uds p) (o_umask os0)) (fun o' os'' => match o' with
                | ORet fd0 => wp (ours_at (Uds p) (o_umask os0)) (fun _ os''' => o_umask os''' = o_umask os0) (_ <~ act (CSet fd0); act COther) os''
                | ORaise e => o_umask os'' = o_umask os0 end) (_ <~ act (CListen fd); Ret fd) os'
            | ORaise e => o_umask os' = o_umask os0 end)
         (finally (act (CBind fd p)) (match om with Some m0 => _ <~ set_umask m0; Ret tt | None => Ret tt end)) os).
    { intros om os m HI' Hn Hm Hom. apply wp_finally. cbn [wp act]. split; auto. intros os5 r5 os6 Ho5 Hs5.
      assert (HI5 : ours_at (Uds p) (o_umask os0) os5) by (eapply ours_others; [|exact Ho5]; assumption). destruct Ho5 as (U5 & S5 & _ & F5).
      (* what the finally does, from a state whose umask is that of [os] *)
      assert (Hlisten : forall os', ours_at (Uds p) (o_umask os0) os' -> o_umask os' = o_umask os0 ->
        wp (ours_at (Uds p) (o_umask os0)) (fun o' os'' => match o' with
                | ORet fd0 => wp (ours_at (Uds p) (o_umask os0)) (fun _ os''' => o_umask os''' = o_umask os0) (_ <~ act (CSet fd0); act COther) os''
                | ORaise e => o_umask os'' = o_umask os0 end) (_ <~ act (CListen fd); Ret fd) os').
      { intros os' H Hu. cbn [wp pbind act]. split; auto. intros os7 r7 os8 Ho7 Hs7.
        assert (H7 : ours_at (Uds p) (o_umask os0) os7) by (eapply ours_others; eauto). destruct Ho7 as (U7 & _ & _ & _).
        answer r7 Hs7; done_with Hs7; cbn [wp pbind]; (split; [auto|]); try congruence.
        apply Hrest; auto. congruence. }
      assert (Hfin : forall (Q : OS -> Prop) os', ours_at (Uds p) (o_umask os0) os' -> o_umask os' = o_umask os ->
        (forall os'', ours_at (Uds p) (o_umask os0) os'' -> o_umask os'' = o_umask os0 -> Q os'') ->
        wp (ours_at (Uds p) (o_umask os0)) (fun o' os'' => match o' with ORet _ => Q os'' | ORaise e => o_umask os'' = o_umask os0 end)
          (match om with Some m0 => _ <~ set_umask m0; Ret tt | None => Ret tt end) os').
      { intros Q os' H Hu HQ. destruct om as [old|].
        - cbn [wp pbind set_umask]. split; auto. intros os7 r7 os8 Ho7 Hs7.
          assert (H7 : ours_at (Uds p) (o_umask os0) os7) by (eapply ours_others; eauto).
          answer r7 Hs7. destruct (N.eqb _ _); [|discriminate]. done_with Hs7. cbn [wp pbind]. split; auto.
        - cbn [wp]. split; auto. apply HQ; auto. congruence. }
      answer r5 Hs5.
      - destruct (o_files os5 p) eqn:Efree; [discriminate|]. destruct (nth_error (o_socks os5) fd) as [x|] eqn:Ex; [|discriminate].
        rewrite S5, Hn in Ex. injection Ex as <-. done_with Hs5. cbn [wp].
        assert (HI6 : ours_at (Uds p) (o_umask os0)
           (with_files os5 (put (o_files os5) p (Some (mkFile (N.ldiff m (o_umask os5)) true))))).
        { intros q f Hq Hmine. cbn [with_files o_files] in Hq. destruct (put_spec (o_files os5) p (Some (mkFile (N.ldiff m (o_umask os5)) true)) q) as [[-> E]|[_ E]]; rewrite E in Hq.
          - injection Hq as <-. cbn [f_mode]. split; auto. rewrite U5. exact Hm.
          - eapply HI5; eauto. }
        split; [exact HI6|]. eapply wp_mono; [|apply (Hfin (fun os' => ours_at (Uds p) (o_umask os0) os' /\ o_umask os' = o_umask os0)); auto].
        intros [[]|e] os' H'; [|auto]. intros [H1 H2]. apply Hlisten; auto.
      - done_with Hs5. cbn [wp]. split; auto. }
    answer r Hs.
    + done_with Hs. cbn [wp]. split; [exact HI3|]. apply wp_bind.
      eapply wp_mono; [|apply (@Hbind None _ 448)].
      * intros [[]|e] os' H' H''; [|exact H'']. cbn [wp]. split; auto.
      * exact HI3.
      * cbn [with_socks o_socks]. now rewrite (@nth_set_same _ _ _ _ Hfd).
      * left. cbn [with_socks o_umask]. congruence.
      * cbn [with_socks o_umask]. congruence.
    + done_with Hs. cbn [pbind set_umask wp]. split; [exact HI3|]. intros os5 r5 os6 Ho5 Hs5.
      assert (HI5 : ours_at (Uds p) (o_umask os0) os5) by (eapply ours_others; [|exact Ho5]; assumption). destruct Ho5 as (U5 & S5 & _ & F5).
      answer r5 Hs5. destruct (N.eqb_spec n (o_umask os5)) as [->|]; [|discriminate]. done_with Hs5. cbn [pbind wp]. split; [exact HI5|].
      apply wp_bind. eapply wp_mono; [|apply (@Hbind (Some (o_umask os5)) _ rwx_all)].
      * intros [[]|e] os' H' H''; [|exact H'']. cbn [wp]. split; auto.
      * exact HI5.
      * cbn [with_umask o_socks]. now rewrite S5.
      * right. reflexivity.
      * congruence.
    + done_with Hs. cbn [wp]. split; [exact HI3|]. congruence.
  - cbn [wp get_fd]. split; auto. intros os1 r os2 Ho Hs. assert (HI1 : ours_at Tcp (o_umask os0) os1) by (eapply ours_others; eauto).
    destruct Ho as (U1 & _). answer r Hs.
    + destruct (Nat.eqb _ _); [|discriminate]. done_with Hs. cbn [wp]. split; auto.
    + done_with Hs. cbn [wp]. auto.
Qed.

Lemma private_448 u : N.land (N.ldiff 448 u) 63 = 0.
Proof. rewrite land_ldiff. reflexivity. Qed.

(** C72: whatever the umask, the platform (fchmod on a socket works or is refused) and
    other processes do, at every moment of opening a listening socket the only file this
    process has made is the socket of the address asked for, and nobody but the user has
    any permission on it; the user has them all unless the umask takes some away. *)
Theorem C72_socket_private : forall a os0 os q path f,
  no_files os0 ->
  reach os0 (server_init a) os q ->
  o_files os path = Some f -> f_mine f = true ->
  a = Uds path /\ private f /\ (N.land (o_umask os0) 448 = 0 -> f_mode f = 448).
Proof.
  intros a os0 os q path f H0 R Hf Hm.
  pose proof (init_wp a H0) as W.
  eapply wp_sound in W; [|intros; eapply ours_others; eauto| |exact R].
  2: { intros o os1 os2 H (Hu & _). congruence. }
  destruct W as [W _]. destruct (W _ _ Hf Hm) as [-> [E|E]]; (split; [reflexivity|]); unfold private; rewrite E; (split; [|intros Hu]).
  - apply private_448.
  - now apply ldiff_disjoint.
  - reflexivity.
  - reflexivity.
Qed.
Print Assumptions C72_socket_private.

(** The umask of the process is what it was, however the attempt ends. *)
Theorem C72_umask_restored : forall a os0 os q,
  no_files os0 -> reach os0 (server_init a) os q -> ended q -> o_umask os = o_umask os0.
Proof.
  intros a os0 os q H0 R E.
  pose proof (init_wp a H0) as W.
  eapply wp_sound in W; [|intros; eapply ours_others; eauto| |exact R].
  2: { intros o os1 os2 H (Hu & _). congruence. }
  destruct W as [_ W]. destruct E as [[x ->]|[e ->]]; exact W.
Qed.
Print Assumptions C72_umask_restored.

(** The script that starts the playbook: at every moment only the user can read or change
    it, and when it is complete the user can run it, whatever the umask is. *)
Theorem C72_script_private : forall os0 os q path f,
  no_files os0 ->
  reach os0 launch_script os q ->
  o_files os path = Some f -> f_mine f = true ->
  private f /\ (forall p, q = Ret p -> p = path /\ f_mode f = 448).
Proof.
  intros os0 os q path f H0 R Hf Hm.
  set (I := fun os : OS => forall p f, o_files os p = Some f -> f_mine f = true -> private f).
  set (J := fun (p : pystr) (os : OS) => forall q f, o_files os q = Some f -> f_mine f = true -> q = p /\ f_mode f = 448).
  assert (IO : forall os os', I os -> others os os' -> I os').
  { intros o1 o2 H (_ & _ & _ & Ho) p' f' Hp Hm'. eapply H; eauto. }
  assert (JO : forall p os os', J p os -> others os os' -> J p os').
  { intros p o1 o2 H (_ & _ & _ & Ho) p' f' Hp Hm'. eapply H; eauto. }
  assert (JI : forall p os, J p os -> I os).
  { intros p o1 H p' f' Hp Hm'. destruct (H _ _ Hp Hm') as [_ E]. unfold private. rewrite E. reflexivity. }
  assert (W : wp I (fun o os => match o with ORet p => J p os | ORaise _ => True end) launch_script os0).
  { unfold launch_script. cbn [wp]. split.
    { intros p' f' Hp Hm'. apply H0 in Hp. congruence. }
    intros os1 r os2 Ho Hs.
    assert (H1 : forall p f, o_files os1 p = Some f -> f_mine f = false).
    { intros p' f' Hp. destruct (f_mine f') eqn:E; auto. destruct Ho as (_ & _ & _ & Ho). apply Ho in Hp; auto. apply H0 in Hp. congruence. }
    answer r Hs.
    2: { done_with Hs. cbn [wp]. split; auto. intros p' f' Hp Hm'. apply H1 in Hp. congruence. }
    destruct (o_files os1 p) eqn:Ep; [discriminate|]. done_with Hs.
    assert (H2 : forall os', others (with_files os1 (put (o_files os1) p (Some (mkFile (N.ldiff rw_owner (o_umask os1)) true)))) os' ->
       forall q f, o_files os' q = Some f -> f_mine f = true -> q = p /\ private f).
    { intros os' (_ & _ & _ & Ho') q' f' Hq Hm'. apply Ho' in Hq; auto. cbn [with_files o_files] in Hq.
      destruct (put_spec (o_files os1) p (Some (mkFile (N.ldiff rw_owner (o_umask os1)) true)) q') as [[-> E]|[_ E]]; rewrite E in Hq.
      - assert (Ef : f' = mkFile (N.ldiff rw_owner (o_umask os1)) true) by congruence. rewrite Ef. split; auto.
        unfold private. change (N.land (N.ldiff rw_owner (o_umask os1)) 63 = 0). rewrite land_ldiff. reflexivity.
      - apply H1 in Hq. congruence. }
    cbn [pbind act wp]. split.
    { intros q' f' Hq Hm'. eapply H2; eauto. apply others_refl. }
    intros os3 r os4 Ho3 Hs3.
    assert (HI3 : I os3). { intros q' f' Hq Hm'. eapply H2; eauto. }
    answer r Hs3; [|done_with Hs3; cbn [pbind wp]; auto].
    assert (J4 : J p os4).
    { intros q' f' Hq Hm'. destruct (o_files os3 p) as [g|] eqn:Eg.
      - destruct (f_mine g) eqn:Emine.
        + done_with Hs3. cbn [with_files o_files] in Hq.
          destruct (put_spec (o_files os3) p (Some (mkFile rwx_owner true)) q') as [[-> E]|[N E]]; rewrite E in Hq.
          * injection Hq as <-. auto.
          * exfalso. apply N. eapply H2; eauto.
        + done_with Hs3. exfalso. destruct (H2 _ Ho3 _ _ Hq Hm') as [-> _]. congruence.
      - done_with Hs3. exfalso. destruct (H2 _ Ho3 _ _ Hq Hm') as [-> _]. congruence. }
    cbn [pbind wp]. split; [eauto|]. intros os5 r os6 Ho5 Hs5. assert (J5 : J p os5) by (eapply JO; eauto).
    answer r Hs5; done_with Hs5; cbn [pbind wp]; eauto. }
  eapply wp_sound in W; [|exact IO| |exact R].
  2: { intros [p|e] o1 o2 H Ho; auto. eapply JO; eauto. }
  destruct W as [W1 W2]. split; [eapply W1; eauto|]. intros p ->. destruct (W2 _ _ Hf Hm) as [-> E]. auto.
Qed.
Print Assumptions C72_script_private.

(** ** The life of a listening debuggee *)
Definition quiet (c : call) : Prop :=
  match c with CUmask _ | CBind _ _ | CMkstemp | CFchmodFile _ _ | CWrite _ => False | _ => True end.
Lemma sys_quiet os c a os' :
  quiet c -> sys os c a = Some os' ->
  o_umask os' = o_umask os /\ forall p f, o_files os' p = Some f -> o_files os p = Some f.
Proof.
  intros Q Hs. destruct c; try contradiction Q; answer a Hs;
    try (destruct (Nat.eqb _ _); [|discriminate Hs]); try (done_with Hs; split; auto; fail).
  - (* unlink *) done_with Hs. split; auto. intros p f Hp. cbn [with_files o_files] in Hp.
    destruct (put_spec (o_files os) path None p) as [[-> E]|[_ E]]; rewrite E in Hp; [discriminate|auto].
  - (* CGet *) destruct (o_held os); [|discriminate]. destruct (Nat.eqb _ _); [|discriminate]. done_with Hs; split; auto.
Qed.
Lemma quiet_handshakes n server conn : only quiet (handshakes n server conn).
Proof.
  revert conn; induction n as [|n IH]; intros conn; [exact Logic.I|].
  cbn [handshakes]. apply only_catch.
  - apply only_bind; [apply only_act; exact Logic.I|]. intros _. apply only_bind; [apply only_act; exact Logic.I|]. intros _. exact Logic.I.
  - intros e q. destruct e; try discriminate. intros H.
    assert (Eq : q = (_ <~ act (CClose conn); conn' <~ get_fd (CAccept server); handshakes n server conn')) by congruence.
    rewrite Eq. apply only_bind; [apply only_act; exact Logic.I|]. intros _. apply only_bind; [apply only_get; exact Logic.I|]. intros c. apply IH.
Qed.
Lemma quiet_act c : quiet c -> only quiet (act c).
Proof. apply only_act. Qed.
Lemma quiet_get c : quiet c -> only quiet (get_fd c).
Proof. apply only_get. Qed.
Lemma quiet_start n tls : only quiet (server_start n tls).
Proof.
  unfold server_start. apply only_bind; [apply quiet_get; exact Logic.I|]. intros server.
  apply only_bind; [apply quiet_get; exact Logic.I|]. intros conn.
  apply only_bind.
  - destruct tls; [apply quiet_handshakes|]. apply only_bind; [apply quiet_act; exact Logic.I|]. intros _. exact Logic.I.
  - intros conn'. apply only_bind; [apply quiet_act; exact Logic.I|]. intros _.
    apply only_bind; [apply quiet_act; exact Logic.I|]. intros _. apply quiet_act; exact Logic.I.
Qed.
Lemma quiet_queue_stop : only quiet queue_stop.
Proof.
  unfold queue_stop. apply only_bind; [apply quiet_act; exact Logic.I|]. intros _.
  apply only_bind; [apply quiet_get; exact Logic.I|]. intros fd. apply only_bind.
  - apply only_catch; [apply quiet_act; exact Logic.I|]. intros e q H.
    destruct e; try discriminate H; injection H as <-; exact Logic.I.
  - intros _. apply quiet_act; exact Logic.I.
Qed.
Lemma quiet_stop a : only quiet (server_stop a).
Proof.
  unfold server_stop. apply only_bind; [|intros _; apply quiet_queue_stop].
  destruct a; cbn [uds_path]; [apply quiet_act; exact Logic.I|exact Logic.I].
Qed.
Lemma quiet_serving n tls : only quiet (catch (_ <~ server_start n tls; act COther) (fun _ => Some (Ret tt))).
Proof.
  apply only_catch; [apply only_bind; [apply quiet_start|intros _; apply only_act; exact Logic.I]|].
  intros e q H; injection H as <-. exact Logic.I.
Qed.
Lemma wp_imp {A} (I I' : OS -> Prop) (Q : outcome A -> OS -> Prop) p os :
  (forall os, I os -> I' os) -> wp I Q p os -> wp I' Q p os.
Proof.
  intros H. revert os; induction p as [a|e| |c k IH]; intros os [H1 H2]; cbn [wp]; split; auto.
  intros os1 a os2 Ho Hs. apply IH. eapply H2; eauto.
Qed.

Definition ours_all (a : address) (u : N) (pid : pystr) (os : OS) : Prop :=
  forall path f, o_files os path = Some f -> f_mine f = true ->
    (a = Uds path /\ (f_mode f = N.ldiff 448 u \/ f_mode f = 448)) \/ (path = pid /\ f_mode f = N.ldiff 438 u).
Definition gone (a : address) (pid : pystr) (os : OS) : Prop :=
  forall p f, a = Uds p -> p <> pid -> o_files os p = Some f -> f_mine f = false.
Lemma listening_wp n tls a pid os0 :
  no_files os0 ->
  wp (ours_all a (o_umask os0) pid)
     (fun o os => o_umask os = o_umask os0 /\ match o with ORet _ => gone a pid os | ORaise _ => True end)
     (listening n tls a pid) os0.
Proof.
  intros H0. set (u := o_umask os0). set (I := ours_all a u pid).
  assert (IO : forall os os', I os -> others os os' -> I os').
  { intros o1 o2 H (_ & _ & _ & Ho) p f Hp Hm. eapply H; eauto. }
  set (K := fun os => I os /\ o_umask os = u).
  assert (KO : forall os os', K os -> others os os' -> K os').
  { intros o1 o2 [H Hu] Ho. split; [eapply IO; eauto|]. destruct Ho as (E & _). congruence. }
  assert (KQ : forall os c r os', K os -> quiet c -> sys os c r = Some os' -> K os').
  { intros o1 c r o2 [H Hu] Hq Hs. destruct (@sys_quiet _ _ _ _ Hq Hs) as [E1 E2]. split; [|congruence].
    intros p f Hp Hm. eapply H; eauto. }
  (* the calls after the unlink *)
  set (G := fun os => K os /\ gone a pid os).
  assert (GO : forall os os', G os -> others os os' -> G os').
  { intros o1 o2 [H Hg] Ho. split; [eapply KO; eauto|]. intros p f Ha Hp Hf. destruct (f_mine f) eqn:E; auto.
    destruct Ho as (_ & _ & _ & Ho). apply Ho in Hf; auto. rewrite <- E. eapply Hg; eauto. }
  assert (GQ : forall os c r os', G os -> quiet c -> sys os c r = Some os' -> G os').
  { intros o1 c r o2 [H Hg] Hq Hs. split; [eapply KQ; eauto|]. destruct (@sys_quiet _ _ _ _ Hq Hs) as [E1 E2].
    intros p f Ha Hp Hf. eapply Hg; eauto. }
  unfold listening. apply wp_bind. eapply wp_mono; [|eapply wp_imp; [|exact (init_wp a H0)]].
  2: { intros os H p f Hp Hm. left. eapply H; eauto. }
  intros [x|e] os1 HI1 Hu1; [|auto].
  apply wp_bind. cbn [wp write_process_file act]. split; [exact HI1|]. intros os2 r os3 Ho Hs.
  assert (K2 : K os2) by (eapply KO; [|exact Ho]; split; auto).
  answer r Hs.
  2: { done_with Hs. cbn [wp]. destruct K2. auto. }
  assert (K3 : K os3).
  { destruct (o_files os2 pid) eqn:Ep; done_with Hs; [exact K2|]. destruct K2 as [KI KU]. split; [|exact KU].
    intros p f Hp Hm. cbn [with_files o_files] in Hp.
    destruct (put_spec (o_files os2) pid (Some (mkFile (N.ldiff rw_all (o_umask os2)) true)) p) as [[-> E]|[_ E]]; rewrite E in Hp.
    - right. assert (Ef : f = mkFile (N.ldiff rw_all (o_umask os2)) true) by congruence. rewrite Ef, KU. auto.
    - eapply KI; eauto. }
  cbn [wp]. split; [apply K3|]. apply wp_finally.
  eapply wp_mono; [|eapply wp_imp; [|apply (@wp_only _ quiet K); [exact KO|exact KQ|apply quiet_serving|exact K3]]].
  2: { intros os H; apply H. }
  intros o os4 _ K4.
  apply wp_mono with (Q := fun o' os'' => K os'' /\ match o' with ORet _ => gone a pid os'' | ORaise _ => True end).
  { intros [[]|e] os' HI' [[? ?] Hg]; destruct o; auto. }
  unfold server_stop. apply wp_bind. destruct a as [p|].
  - cbn [uds_path wp act]. split; [apply K4|]. intros os5 r os6 Ho5 Hs5. assert (K5 : K os5) by (eapply KO; eauto).
    answer r Hs5; [|done_with Hs5; cbn [wp]; split; [apply K5|auto]].
    assert (G6 : G os6).
    { split; [apply (KQ os5 (CUnlink p) RUnit); [exact K5|exact Logic.I|exact Hs5]|]. done_with Hs5. intros p' f Ha Hp Hf. injection Ha as <-.
      cbn [with_files o_files] in Hf. rewrite put_same in Hf. discriminate. }
    cbn [wp]. split; [apply G6|].
    eapply wp_mono; [|eapply wp_imp; [|apply (@wp_only _ quiet G); [exact GO|exact GQ|apply quiet_queue_stop|exact G6]]].
    + intros o' os' _ [HK HG]. split; auto. destruct o'; auto.
    + intros os H; apply H.
  - cbn [uds_path wp]. split; [apply K4|].
    assert (G4 : G os4) by (split; auto; intros p f Ha; discriminate).
    eapply wp_mono; [|eapply wp_imp; [|apply (@wp_only _ quiet G); [exact GO|exact GQ|apply quiet_queue_stop|exact G4]]].
    + intros o' os' _ [HK HG]. split; auto. destruct o'; auto.
    + intros os H; apply H.
Qed.

(** C72 over the whole life of a listening debuggee: at every moment the files this process
    has made are the socket, private, and the process file, whose mode is left to the
    umask; the umask is unchanged at the end; when the debuggee has ended normally the
    socket file is gone.  Missing from the full claim: the process file is private only if
    the umask makes it so, and a socket file can be left behind when a call fails (see the
    [_refuted] theorems). *)
Theorem C72_session_partial : forall tries tls a pid os0 os q,
  no_files os0 ->
  reach os0 (listening tries tls a pid) os q ->
  (forall path f, o_files os path = Some f -> f_mine f = true ->
     (a = Uds path /\ private f) \/ (path = pid /\ f_mode f = N.ldiff 438 (o_umask os0))) /\
  (ended q -> o_umask os = o_umask os0) /\
  (q = Ret tt -> forall p f, a = Uds p -> p <> pid -> o_files os p = Some f -> f_mine f = false).
Proof.
  intros tries tls a pid os0 os q H0 R.
  pose proof (listening_wp tries tls a pid H0) as W.
  eapply wp_sound in W; [| | |exact R].
  2: { intros o1 o2 H (_ & _ & _ & Ho) p f Hp Hm. eapply H; eauto. }
  2: { intros o o1 o2 [Hu Hg] Ho. destruct Ho as (Eu & _ & _ & Ho). split; [congruence|]. destruct o; auto.
       intros p f Ha Hp Hf. destruct (f_mine f) eqn:E; auto. apply Ho in Hf; auto. rewrite <- E. eapply Hg; eauto. }
  destruct W as [W1 W2]. split; [|split].
  - intros path f Hf Hm. destruct (W1 _ _ Hf Hm) as [[-> [E|E]]|[-> E]]; [left|left|right]; (split; [reflexivity|]);
      try exact E; unfold private; rewrite E; [apply private_448|reflexivity].
  - intros [[x ->]|[e ->]]; apply W2.
  - intros -> p f Ha Hp Hf. eapply W2; eauto.
Qed.
Print Assumptions C72_session_partial.
