(** C81: several playbooks in one ansible-playbook run. *)
From Verif Require Import PyBase LifeModel LifeSpec LifeProps.
Set Implicit Arguments.
Ltac csplit := repeat match goal with |- _ /\ _ => split end.

(** A debugger no adapter talks to: nothing was received, and the send thread is not in the
    part of its life in which it is connected. *)
Definition unconnected (y : Life) : Prop := f_r y = RNone /\ f_s y <> SFlag /\ f_s y <> SGet /\ f_s y <> SSend.

Definition later (b : Book) (y : Life) : Prop :=
  f_cancel y = true /\ f_conf y = true /\ f_r y = RNone /\ f_inp y = b_inp b /\
  (f_s y <> SStart /\ f_s y <> SFlag /\ f_s y <> SGet /\ f_s y <> SSend) /\ (f_m y <> MDone -> f_pid y = b_listen b).
Lemma later_step b y l y' : later b y -> fstep y l = Some y' -> later b y'.
Proof.
  intros (A & B & C & D & (E1 & E2 & E3 & E4) & F) H. destruct y as [m sd r plays inp closed cancel flag conf term strat lock notified q pid].
  unfold later in *. cbn in *. subst cancel conf r inp. destruct l as [ok| | | |ok|ok]; cbn in H.
  - destruct sd; try discriminate. congruence.
  - discriminate.
  - destruct closed; [discriminate|]. injection H as <-. cbn. auto 12.
  - unfold main_step, free, sdead, put in H. cbn in H.
    destruct m as [| |n|n|[|n]| | | | | | | | | |]; cbn in H; try discriminate; try (destruct flag);
    repeat match goal with H : (match ?x with _ => _ end) = Some _ |- _ => destruct x eqn:?; try discriminate H end;
    injection H as <-; cbn; csplit; auto; try congruence; try (intros _; apply F; discriminate).
  - unfold send_step in H. cbn in H. destruct sd; cbn in H; try discriminate; try congruence; try destruct ok;
    repeat match goal with H : (match ?x with _ => _ end) = Some _ |- _ => destruct x eqn:?; try discriminate H end;
    injection H as <-; cbn; csplit; auto; discriminate.
  - discriminate.
Qed.

Lemma done_state y : FInv y -> f_m y = MDone -> f_cancel y = true /\ f_lock y = None /\ f_strat y = false /\ f_pid y = false /\ (f_r y = RNone \/ f_r y = RDead).
Proof.
  intros I M. assert (D : f_s y = SDead) by (apply (i_dead I); now rewrite M). csplit.
  - apply (i_cancel2 I); rewrite D; [reflexivity|discriminate].
  - pose proof (i_lock I) as L. rewrite M in L. cbn in L. destruct (i_joined I) as [R|R]; [auto|rewrite R in L; exact L..].
  - rewrite (i_strat I), M. reflexivity.
  - apply (i_pid I). auto.
  - apply (i_joined I). auto.
Qed.

Definition conf_done (y : Life) : Prop := match f_m y with MS5 | MS5b | MS6 | MDone => f_conf y = true | _ => True end.
Lemma conf_done_step y l y' : conf_done y -> fstep y l = Some y' -> conf_done y'.
Proof.
  intros A H. destruct y as [m sd r plays inp closed cancel flag conf term strat lock notified q pid].
  unfold conf_done in *. cbn in *. destruct l as [ok| | | |ok|ok]; cbn in H.
  - destruct sd; try discriminate. destruct ok; injection H as <-; exact A.
  - destruct r; try discriminate. destruct inp; [discriminate|]. injection H as <-. exact A.
  - destruct closed; [discriminate|]. injection H as <-. exact A.
  - unfold main_step, free, sdead, put in H. cbn in H.
    destruct m as [| |n|n|[|n]| | | | | | | | | |]; cbn in H; try discriminate; try (destruct flag);
    repeat match goal with H : (match ?x with _ => _ end) = Some _ |- _ => destruct x eqn:?; try discriminate H end;
    injection H as <-; cbn; auto.
  - unfold send_step in H. cbn in H. destruct sd; cbn in H; try discriminate; try destruct ok;
    repeat match goal with H : (match ?x with _ => _ end) = Some _ |- _ => destruct x eqn:?; try discriminate H end;
    injection H as <-; exact A.
  - unfold recv_step, free, put in H. cbn in H. destruct r; cbn in H; try discriminate;
    repeat match goal with H : (match ?x with _ => _ end) = Some _ |- _ => destruct x eqn:?; try discriminate H end;
    injection H as <-; cbn; auto; destruct m; auto.
Qed.

Lemma books_inv bs y : books bs y -> FInv y /\ conf_done y /\ forall bs' b, bs = bs' ++ [b] -> bs' <> [] -> later b y.
Proof.
  induction 1 as [b|bs y l y' B (I & CD & L) H|bs y b B (I & CD & L) M].
  - split; [apply finv_init|]. split; [destruct b as [li [|] p i]; exact Logic.I|]. intros bs' b' E N. destruct bs' as [|x [|z bs']]; [congruence|discriminate..].
  - split; [eapply step_finv; eauto|]. split; [eapply conf_done_step; eauto|]. intros bs' b E N. eapply later_step; eauto.
  - destruct (done_state I M) as (C & LK & ST & PI & R). assert (CF : f_conf y = true) by (unfold conf_done in CD; now rewrite M in CD).
    assert (LA : later b (next_life (b_listen b) (b_nowait b) (b_plays b) (b_inp b) y)).
    { unfold later, next_life. cbn. rewrite PI. csplit; auto; discriminate. }
    split; [|split; [destruct b as [li [|] p i]; exact Logic.I|intros bs' b' E N; apply app_inj_tail in E; destruct E as (_ & <-); exact LA]].
    unfold next_life. rewrite LK, ST. destruct b as [li nw p i]. cbn. destruct nw; constructor; cbn; auto; try discriminate; try (intros [X|X]; discriminate); try (intros [X|[X|X]]; discriminate).
Qed.

(** C81, refuted: every playbook after the first of a run is out of the client's reach.  No
    adapter connects to its debugger, nothing the client sends is read and nothing is
    sent; its configuration is not waited for; and in listen mode the process file
    announces this dead debugger as long as the playbook runs. *)
Theorem C81_every_playbook_debuggable_refuted bs b y : bs <> [] -> books (bs ++ [b]) y ->
  unconnected y /\ f_inp y = b_inp b /\ (f_m y = MConf -> exists y', fstep y LMain = Some y' /\ f_m y' = MBetween) /\
  (f_m y <> MDone -> f_pid y = b_listen b).
Proof.
  intros N B. destruct (books_inv B) as (_ & _ & L). destruct (L _ _ eq_refl N) as (A & C & R & E & (_ & S) & P).
  csplit; auto; try (split; tauto). intros M. cbn. unfold main_step. rewrite M, C. eexists. split; [reflexivity|reflexivity].
Qed.
Print Assumptions C81_every_playbook_debuggable_refuted.

Lemma books_run bs y y' : frun y y' -> books bs y -> books bs y'.
Proof. intros R B. induction R as [|y y1 l y2 R IH H]; [exact B|]. eapply books_step; [exact (IH B)|exact H]. Qed.

(** The first playbook of a run is debuggable: whatever the mode and its plays, an adapter
    can connect and every request it sends can be read. *)
Theorem C81_first_playbook_partial b r rest : b_inp b = r :: rest ->
  exists y, books [b] y /\ f_flag y = true /\ f_r y = RHandle r /\ f_inp y = rest.
Proof.
  intros E. destruct b as [li nw p i]. cbn in E. subst i.
  destruct (fgo (life_init li nw p (r :: rest)) [LSendT true; LAccept true; LSendT true; LData]) as [y|] eqn:G; [|destruct nw; discriminate].
  exists y. split; [eapply books_run; [eapply fgo_run; exact G|apply (books_first (mkBook li nw p (r :: rest)))]|].
  destruct nw; cbn in G; injection G as <-; auto.
Qed.
Print Assumptions C81_first_playbook_partial.

(** ... and the later playbooks are not held up by that: each runs through its plays and
    its shutdown returns, whatever a client does. *)
Theorem C81_later_playbooks_run bs b y : bs <> [] -> books (bs ++ [b]) y -> will (fun y => f_m y = MDone) y.
Proof.
  intros N B. pose proof (books_inv B) as (I & _ & L). specialize (L _ _ eq_refl N).
  (* a request still to come is never read: leave them out of the measure *)
  assert (G : forall n y, W (w_inp [] y) < n -> FInv y -> later b y -> will (fun y => f_m y = MDone) y).
  { clear. induction n as [|n IH]; intros y LT I L; [lia|].
    assert (I0 : FInv (w_inp [] y)) by (destruct I; constructor; auto).
    assert (R : f_r y = RNone) by (unfold later in L; tauto).
    assert (CA : calm (w_inp [] y)) by (split; [constructor|cbn; rewrite R; exact Logic.I]).
    assert (NX : forall l y', fstep y l = Some y' -> fstep (w_inp [] y) l = Some (w_inp [] y')).
    { intros l y' H. destruct y as [m sd r plays inp closed cancel flag conf term strat lock notified q pid]. cbn in R. subst r.
      destruct l as [ok| | | |ok|ok]; cbn in *; try discriminate.
      - destruct sd; try discriminate. destruct ok; injection H as <-; reflexivity.
      - destruct closed; [discriminate|]. injection H as <-. reflexivity.
      - unfold main_step, free, sdead, put in *. cbn in *.
        destruct m as [| |k|k|[|k]| | | | | | | | | |]; cbn in *; try discriminate; try (destruct flag);
        repeat match goal with H : (match ?x with _ => _ end) = Some _ |- _ => destruct x eqn:?; try discriminate H end; injection H as <-; reflexivity.
      - unfold send_step in *. cbn in *. destruct sd; cbn in *; try discriminate; try destruct ok;
        repeat match goal with H : (match ?x with _ => _ end) = Some _ |- _ => destruct x eqn:?; try discriminate H end; injection H as <-; reflexivity. }
    assert (D : f_m y = MDone \/ f_m y <> MDone) by (destruct (f_m y); auto; right; discriminate). destruct D as [D|D]; [now apply will_now|].
    apply will_later.
    - destruct L as (A & C & _ & _ & (S1 & S2) & _).
      assert (X : f_m y = MConf \/ f_m y <> MConf) by (destruct (f_m y); auto; right; discriminate). destruct X as [X|X].
      + exists LMain. cbn. unfold main_step. rewrite X, C. eauto.
      + destruct (main_can I0 CA X D) as (l & y' & O & H).
        destruct y as [m sd r plays inp closed cancel flag conf term strat lock notified q pid]. cbn in *. subst r cancel conf.
        exists l. destruct l as [ok| | | |ok|ok]; cbn in *; try discriminate.
        * destruct sd; congruence.
        * unfold main_step, free, sdead, put in *. cbn in *. destruct m as [| |k|k|[|k]| | | | | | | | | |]; cbn in *; eauto; try discriminate.
          all: repeat match goal with H : (match ?x with _ => _ end) = Some _ |- _ => destruct x eqn:?; try discriminate H end; eauto.
        * unfold send_step in *. cbn in *. destruct sd; cbn in *; eauto; try discriminate.
          all: repeat match goal with H : (match ?x with _ => _ end) = Some _ |- _ => destruct x eqn:?; try discriminate H end; eauto.
    - intros l y' H. destruct (@calm_step _ _ _ I0 CA (NX _ _ H)) as (_ & LT'). apply IH; [lia|exact (@step_finv y l y' I H)|exact (@later_step b y l y' L H)]. }
  eapply G; eauto.
Qed.
Print Assumptions C81_later_playbooks_run.

(** A first playbook that is debugged over a connection, then a second that is not. *)
Example C81_two_playbooks : exists y, books [mkBook true false [1] [QPlain; QConf]; mkBook true false [2] [QConf]] y /\ f_m y = MPlay 2 /\ f_pid y = true.
Proof.
  destruct (fgo (life_init true false [1] [QPlain; QConf])
    ([LSendT true; LAccept true; LSendT true; LData; LRecvT true; LRecvT true; LData; LRecvT true; LRecvT true; LRecvT true; LSendT true; LSendT true; LSendT true; LSendT true] ++
     [LMain; LMain; LMain; LMain; LMain; LMain; LMain; LMain; LMain; LMain; LMain; LSendT true; LSendT true; LSendT true; LSendT true; LRecvT true; LRecvT true; LRecvT true; LRecvT true; LRecvT true;
      LSendT true; LSendT true; LSendT true; LMain; LMain; LMain; LMain; LMain])) as [y1|] eqn:E1; [|vm_compute in E1; discriminate].
  destruct (fgo (next_life true false [2] [QConf] y1) [LMain; LMain; LMain; LMain]) as [y2|] eqn:E2; [|vm_compute in E1; injection E1 as <-; vm_compute in E2; discriminate].
  vm_compute in E1. injection E1 as <-.
  exists y2. split.
  - eapply books_run; [eapply fgo_run; exact E2|]. apply (@books_next [mkBook true false [1] [QPlain; QConf]] _ (mkBook true false [2] [QConf])); [|reflexivity].
    eapply books_run; [|apply books_first]. eapply fgo_run with (ls := [LSendT true; LAccept true; LSendT true; LData; LRecvT true; LRecvT true; LData; LRecvT true; LRecvT true; LRecvT true; LSendT true; LSendT true; LSendT true; LSendT true] ++
     [LMain; LMain; LMain; LMain; LMain; LMain; LMain; LMain; LMain; LMain; LMain; LSendT true; LSendT true; LSendT true; LSendT true; LRecvT true; LRecvT true; LRecvT true; LRecvT true; LRecvT true;
      LSendT true; LSendT true; LSendT true; LMain; LMain; LMain; LMain; LMain]). vm_compute. reflexivity.
  - vm_compute in E2. injection E2 as <-. auto.
Qed.
