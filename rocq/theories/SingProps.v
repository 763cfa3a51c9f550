(** C76: the callback and the strategy use one debugger. *)
From Coq Require Import List Bool Arith Lia.
From Verif Require Import SingModel.
Import ListNotations.

(** The objects a trace makes, and the calls that begin. *)
Definition made (ls : list slabel) : nat := length (filter (fun l => match l with SMake _ true => true | _ => false end) ls).
Definition begins (ls : list slabel) : list nat := flat_map (fun l => match l with SCheck c => [c] | _ => [] end) ls.
(** Until an object is stored, a call begins only after all earlier ones have raised. *)
Definition first_alone (ls : list slabel) : Prop :=
  forall pre c post, ls = pre ++ SCheck c :: post -> (forall d, ~ In (SStore d) pre) -> forall d, In (SCheck d) pre -> In (SMake d false) pre.

Lemma phase_drop_ne c d l : c <> d -> phase_of c (drop d l) = phase_of c l.
Proof.
  induction l as [|[k p] l IH]; cbn; auto. intros H. destruct (Nat.eqb_spec k d); cbn.
  - subst. destruct (Nat.eqb_spec d c); [congruence|auto].
  - destruct (Nat.eqb_spec k c); auto.
Qed.
Lemma phase_drop_eq c l : phase_of c (drop c l) = None.
Proof. induction l as [|[k p] l IH]; cbn; auto. destruct (Nat.eqb_spec k c); cbn; auto. destruct (Nat.eqb_spec k c); [contradiction|auto]. Qed.
Lemma phase_cons c d p l : phase_of c ((d, p) :: l) = if Nat.eqb d c then Some p else phase_of c l.
Proof. reflexivity. Qed.

Lemma srun_app g a g' b g'' : srun g a g' -> srun g' b g'' -> srun g (a ++ b) g''.
Proof. induction 1; cbn; intros; auto. econstructor; eauto. Qed.
Lemma srun_snoc_inv g ls l g'' : srun g (ls ++ [l]) g'' -> exists g', srun g ls g' /\ sstep g' l = Some g''.
Proof.
  revert g; induction ls as [|x ls IH]; cbn; intros g H; inversion H; subst.
  - match goal with X : srun _ [] _ |- _ => inversion X; subst end. eexists. split; [constructor|eassumption].
  - destruct (IH _ H5) as (h & A & B). exists h. split; auto. econstructor; eauto.
Qed.
Lemma first_alone_init ls l : first_alone (ls ++ [l]) -> first_alone ls.
Proof. intros H pre c post E. apply (H pre c (post ++ [l])). rewrite E, <- app_assoc. reflexivity. Qed.
Lemma made_snoc ls l : made (ls ++ [l]) = made ls + match l with SMake _ true => 1 | _ => 0 end.
Proof. unfold made. rewrite filter_app, app_length. cbn. destruct l as [|c []| |]; reflexivity. Qed.

(** * Whatever the threads do *)
Definition Inv0 (ls : list slabel) (g : SG) : Prop :=
  g_made g = made ls /\
  (forall c p, phase_of c (g_calls g) = Some p -> In (SCheck c) ls /\ (p = PLoad -> g_inst g <> None) /\ (forall o, p = PStore o -> o < g_made g)) /\
  (g_inst g = None <-> forall d, ~ In (SStore d) ls) /\
  (forall o, g_inst g = Some o -> o < g_made g) /\ (forall c o, In (c, o) (g_ret g) -> o < g_made g /\ g_inst g <> None).
Lemma inv0 ls : forall g, srun sg_init ls g -> Inv0 ls g.
Proof.
  induction ls as [|l ls IH] using rev_ind; intros g R.
  - inversion R; subst. unfold Inv0. cbn. split; [reflexivity|]. split; [discriminate|]. split; [split; auto|]. split; [discriminate|]. intros ? ? [].
  - destruct (srun_snoc_inv _ _ _ _ R) as (g0 & R0 & S). destruct (IH _ R0) as (A & B & C & D & E). clear IH R.
    assert (ins : forall x, In x (ls ++ [l]) <-> In x ls \/ x = l) by (intros x; rewrite in_app_iff; cbn; intuition).
    unfold Inv0. rewrite made_snoc. destruct l as [c|c ok|c|c]; cbn in S.
    + destruct (phase_of c (g_calls g0)) eqn:P; [discriminate|]. injection S as <-. cbn. split; [lia|]. split.
      * intros d p H. rewrite ins. destruct (Nat.eqb_spec c d).
        { injection H as <-. subst. split; [auto|]. destruct (g_inst g0); split; intros; discriminate. }
        destruct (B d p H) as (B1 & B2). auto.
      * split; [|auto]. rewrite C. split; intros H d X; apply (H d); [apply ins in X as [X|X]; [auto|discriminate]|apply ins; auto].
    + destruct (phase_of c (g_calls g0)) as [[| |]|] eqn:P; try discriminate. injection S as <-.
      assert (C' : g_inst g0 = None <-> (forall d, ~ In (SStore d) (ls ++ [SMake c ok]))).
      { rewrite C. split; intros H d X; apply (H d); [apply ins in X as [X|X]; [auto|discriminate]|apply ins; auto]. }
      destruct ok; cbn.
      * split; [lia|]. split.
        { intros d p H. rewrite ins. destruct (Nat.eqb_spec c d).
          - injection H as <-. subst. destruct (B _ _ P) as (B1 & _). split; [auto|]. split; [discriminate|]. intros o X. injection X. lia.
          - rewrite phase_drop_ne in H by auto. destruct (B d p H) as (B1 & B2 & B3). split; [auto|]. split; [auto|]. intros o X. specialize (B3 o X). lia. }
        split; [exact C'|]. split; [intros o X; specialize (D o X); lia|]. intros d o X. destruct (E d o X). split; [lia|auto].
      * split; [lia|]. split; [|split; [exact C'|auto]].
        intros d p H. rewrite ins. destruct (Nat.eq_dec c d) as [->|N]; [rewrite phase_drop_eq in H; discriminate|].
        rewrite phase_drop_ne in H by auto. destruct (B d p H) as (B1 & B2 & B3). auto.
    + destruct (phase_of c (g_calls g0)) as [[|o|]|] eqn:P; try discriminate. injection S as <-. cbn. split; [lia|]. split.
      * intros d p H. rewrite ins. destruct (Nat.eqb_spec c d).
        { injection H as <-. subst. destruct (B _ _ P) as (B1 & _). split; [auto|]. split; [discriminate|]. intros; discriminate. }
        rewrite phase_drop_ne in H by auto. destruct (B d p H) as (B1 & B2 & B3). split; [auto|]. split; [discriminate|auto].
      * split; [split; [discriminate|intros X; exfalso; apply (X c), ins; auto]|].
        split; [intros o' X; injection X as <-; apply (B _ _ P); reflexivity|]. intros d o' X. destruct (E d o' X). split; [lia|discriminate].
    + destruct (phase_of c (g_calls g0)) as [[| |]|] eqn:P; try discriminate. destruct (g_inst g0) as [o|] eqn:I; [|discriminate]. injection S as <-. cbn. split; [lia|]. split.
      * intros d p H. rewrite ins. destruct (Nat.eq_dec c d) as [->|N]; [rewrite phase_drop_eq in H; discriminate|].
        rewrite phase_drop_ne in H by auto. destruct (B d p H) as (B1 & B2 & B3). auto.
      * split; [|split; [auto|]].
        { rewrite C. split; intros H d X; apply (H d); [apply ins in X as [X|X]; [auto|discriminate]|apply ins; auto]. }
        intros d o' X. apply in_app_iff in X as [X|[X|[]]]; [apply (E d o' X)|]. injection X as <- <-. split; [apply D; reflexivity|discriminate].
Qed.

(** * When the first call is alone *)
Lemma begins_snoc ls l : begins (ls ++ [l]) = begins ls ++ match l with SCheck c => [c] | _ => [] end.
Proof. unfold begins. rewrite flat_map_app. cbn. rewrite app_nil_r. reflexivity. Qed.
Lemma in_begins c ls : In (SCheck c) ls <-> In c (begins ls).
Proof.
  unfold begins. rewrite in_flat_map. split.
  - intros H. exists (SCheck c). split; [auto|left; auto].
  - intros (x & H & I). destruct x; cbn in I; try contradiction. destruct I as [->|[]]. auto.
Qed.
Lemma nodup_front (a b : list nat) : NoDup (a ++ b) -> NoDup a.
Proof. induction a; intros H; [constructor|]. inversion H; subst. constructor; [intros X; apply H2, in_app_iff; auto|auto]. Qed.
Lemma nodup_last (a : list nat) x : NoDup (a ++ [x]) -> ~ In x a.
Proof. induction a; cbn; intros H; [auto|]. inversion H; subst. intros [->|X]; [apply H2, in_app_iff; cbn; auto|exact (IHa H3 X)]. Qed.
Lemma raised_gone ls : forall g c, srun sg_init ls g -> NoDup (begins ls) -> In (SMake c false) ls -> In (SCheck c) ls /\ phase_of c (g_calls g) = None.
Proof.
  induction ls as [|l ls IH] using rev_ind; intros g c R ND V; [destruct V|].
  destruct (srun_snoc_inv _ _ _ _ R) as (g0 & R0 & S). rewrite begins_snoc in ND.
  assert (X : l = SMake c false \/ In (SMake c false) ls) by (apply in_app_iff in V as [V|[V|[]]]; auto).
  rewrite in_app_iff.
  destruct X as [->|X].
  - cbn in S. destruct (phase_of c (g_calls g0)) as [[| |]|] eqn:P; try discriminate. injection S as <-. cbn.
    destruct (inv0 _ _ R0) as (_ & J & _). destruct (J _ _ P) as (J1 & _). split; [auto|apply phase_drop_eq].
  - destruct (IH _ c R0 (nodup_front _ _ ND) X) as (C & P). split; [auto|].
    destruct l as [d|d ok|d|d]; cbn in S.
    + destruct (phase_of d (g_calls g0)); [discriminate|]. injection S as <-. cbn. destruct (Nat.eqb_spec d c); [|exact P].
      subst. apply in_begins in C. destruct (nodup_last _ _ ND C).
    + destruct (Nat.eq_dec d c) as [->|N]; [rewrite P in S; discriminate|].
      destruct (phase_of d (g_calls g0)) as [[| |]|]; try discriminate. injection S as <-.
      destruct ok; cbn; [destruct (Nat.eqb_spec d c); [contradiction|]|]; rewrite phase_drop_ne by auto; exact P.
    + destruct (Nat.eq_dec d c) as [->|N]; [rewrite P in S; discriminate|].
      destruct (phase_of d (g_calls g0)) as [[| |]|]; try discriminate. injection S as <-.
      cbn; destruct (Nat.eqb_spec d c); [contradiction|]. rewrite phase_drop_ne by auto; exact P.
    + destruct (Nat.eq_dec d c) as [->|N]; [rewrite P in S; discriminate|].
      destruct (phase_of d (g_calls g0)) as [[| |]|]; try discriminate. destruct (g_inst g0); [|discriminate]. injection S as <-.
      cbn. rewrite phase_drop_ne by auto; exact P.
Qed.
Definition Inv1 (ls : list slabel) (g : SG) : Prop :=
  match g_inst g with
  | None => g_ret g = [] /\
      ((g_calls g = [] /\ g_made g = 0) \/
       (exists c, g_calls g = [(c, PMake)] /\ g_made g = 0) \/ (exists c, g_calls g = [(c, PStore 0)] /\ g_made g = 1))
  | Some o => o = 0 /\ g_made g = 1 /\ (forall c p, phase_of c (g_calls g) = Some p -> p = PLoad) /\ (forall c o', In (c, o') (g_ret g) -> o' = 0)
  end.
Lemma inv1 ls : forall g, srun sg_init ls g -> first_alone ls -> NoDup (begins ls) -> Inv1 ls g.
Proof.
  induction ls as [|l ls IH] using rev_ind; intros g R F ND.
  - inversion R; subst. cbn. split; auto.
  - destruct (srun_snoc_inv _ _ _ _ R) as (g0 & R0 & S).
    assert (ND0 : NoDup (begins ls)) by (rewrite begins_snoc in ND; exact (nodup_front _ _ ND)).
    specialize (IH _ R0 (first_alone_init _ _ F) ND0).
    pose proof (inv0 _ _ R0) as (J1 & J2 & J3 & J4 & J5).
    unfold Inv1 in *. destruct (g_inst g0) as [o|] eqn:I.
    + destruct IH as (-> & M & P & Q). destruct l as [c|c ok|c|c]; cbn in S.
      * destruct (phase_of c (g_calls g0)) eqn:Pc; [discriminate|]. injection S as <-. rewrite I. cbn. repeat split; auto.
        intros d p H. destruct (Nat.eqb c d); [congruence|eauto].
      * destruct (phase_of c (g_calls g0)) as [[| |]|] eqn:Pc; try discriminate. discriminate (P _ _ Pc).
      * destruct (phase_of c (g_calls g0)) as [[| |]|] eqn:Pc; try discriminate. discriminate (P _ _ Pc).
      * destruct (phase_of c (g_calls g0)) as [[| |]|] eqn:Pc; try discriminate. rewrite I in S. injection S as <-. cbn. repeat split; auto.
        { intros d p H. destruct (Nat.eq_dec c d) as [->|N]; [rewrite phase_drop_eq in H; discriminate|]. rewrite phase_drop_ne in H by auto. eauto. }
        intros d o' X. apply in_app_iff in X as [X|[X|[]]]; [eauto|congruence].
    + destruct IH as (Q & IH).
      destruct l as [c|c ok|c|c]; cbn in S.
      * destruct (phase_of c (g_calls g0)) eqn:Pc; [discriminate|]. injection S as <-. rewrite I. cbn. split; auto.
        destruct IH as [(K & M)|IH]; [rewrite K; right; left; eauto|].
        exfalso.
        assert (FF : forall d, In (SCheck d) ls -> In (SMake d false) ls) by (apply (F ls c []); [reflexivity|apply J3; reflexivity]).
        assert (exists d p, phase_of d (g_calls g0) = Some p) as (d & p & Hd).
        { destruct IH as [(d & E & _)|(d & E & _)]; rewrite E; exists d; cbn; rewrite Nat.eqb_refl; eauto. }
        assert (V : In (SMake d false) ls) by (apply FF; apply (J2 _ _ Hd)).
        destruct (raised_gone _ _ d R0 ND0 V) as (_ & Y). congruence.
      * destruct IH as [(K & M)|[(d & K & M)|(d & K & M)]]; rewrite K in S; cbn in S; [discriminate| |destruct (Nat.eqb d c); discriminate].
        destruct (Nat.eqb_spec d c) as [->|]; [|discriminate]. injection S as <-. destruct ok; cbn; rewrite I, ?Nat.eqb_refl; cbn; (split; [auto|]).
        { right. right. exists c. rewrite M. split; reflexivity. }
        left. split; [reflexivity|auto].
      * destruct IH as [(K & M)|[(d & K & M)|(d & K & M)]]; rewrite K in S; cbn in S; [discriminate|destruct (Nat.eqb d c); discriminate|].
        destruct (Nat.eqb_spec d c) as [->|]; [|discriminate]. injection S as <-. cbn. repeat split; auto.
        { intros e p H. cbn in H. destruct (Nat.eqb c e); congruence. }
        rewrite Q. intros ? ? [].
      * destruct (phase_of c (g_calls g0)) as [[| |]|]; try discriminate. rewrite I in S. discriminate.
Qed.

(** If the first call to finish was alone until it stored its object, all calls return the
    same one and no other object is ever made. *)
Theorem C76_same_partial : forall ls g, srun sg_init ls g -> first_alone ls -> NoDup (begins ls) ->
  (forall c o c' o', In (c, o) (g_ret g) -> In (c', o') (g_ret g) -> o = o') /\ made ls <= 1.
Proof.
  intros ls g R F ND. pose proof (inv1 _ _ R F ND) as I. destruct (inv0 _ _ R) as (M & _). unfold Inv1 in I. rewrite <- M. destruct (g_inst g).
  - destruct I as (_ & E & _ & Q). split; [|lia]. intros c o c' o' A B. rewrite (Q _ _ A), (Q _ _ B). reflexivity.
  - destruct I as (Q & I). rewrite Q. split; [intros ? ? ? ? []|]. destruct I as [(_ & E)|[(c & _ & E)|(c & _ & E)]]; lia.
Qed.
(** Whatever the threads do: a call under way can always go on, only objects that were made
    are returned, and a call that begins after an object was stored makes none. *)
Theorem C76_calls : forall ls g, srun sg_init ls g ->
  (forall c, phase_of c (g_calls g) <> None -> exists l, (l = SMake c true \/ l = SStore c \/ l = SReturn c) /\ sstep g l <> None) /\
  (forall c o, In (c, o) (g_ret g) -> o < made ls) /\
  (forall c d g', In (SStore d) ls -> sstep g (SCheck c) = Some g' -> sstep g' (SReturn c) <> None /\ sstep g' (SMake c true) = None).
Proof.
  intros ls g R. destruct (inv0 _ _ R) as (M & B & C & D & E). split; [|split].
  - intros c H. destruct (phase_of c (g_calls g)) as [p|] eqn:P; [|congruence]. destruct (B _ _ P) as (_ & L & _). destruct p.
    + exists (SMake c true). split; [auto|]. cbn. rewrite P. discriminate.
    + exists (SStore c). split; [auto|]. cbn. rewrite P. discriminate.
    + exists (SReturn c). split; [auto|]. cbn. rewrite P. destruct (g_inst g); [discriminate|]. destruct (L eq_refl eq_refl).
  - intros c o H. rewrite <- M. apply (E c o H).
  - intros c d g' H S. cbn in S. destruct (phase_of c (g_calls g)); [discriminate|]. injection S as <-. destruct (g_inst g) eqn:I.
    + split; cbn; rewrite Nat.eqb_refl; [discriminate|reflexivity].
    + exfalso. destruct C as (C & _). apply (C eq_refl d H).
Qed.
(** A constructor that raises leaves no trace: the next call makes the object. *)
Theorem C76_raise : forall ls g c g' g'', srun sg_init ls g -> g_calls g = [] -> sstep g (SCheck c) = Some g' -> sstep g' (SMake c false) = Some g'' -> g'' = g.
Proof.
  intros ls g c g' g'' _ K S1 S2. destruct g as [i m k r]; cbn in *. subst k. cbn in S1. injection S1 as <-. cbn in S2. rewrite Nat.eqb_refl in S2.
  destruct i; [discriminate|]. injection S2 as <-. cbn. rewrite ?Nat.eqb_refl. reflexivity.
Qed.
Fixpoint srunf (g : SG) (ls : list slabel) : option SG := match ls with [] => Some g | l :: r => match sstep g l with Some g' => srunf g' r | None => None end end.
Lemma srunf_ok ls : forall g g', srunf g ls = Some g' -> srun g ls g'.
Proof. induction ls; cbn; intros g g' H; [injection H as <-; constructor|]. destruct (sstep g a) eqn:E; [|discriminate]. econstructor; eauto. Qed.
(** Two racing first calls get two debuggers. *)
Theorem C76_same_refuted : ~ (forall ls g, srun sg_init ls g -> NoDup (begins ls) -> forall c o c' o', In (c, o) (g_ret g) -> In (c', o') (g_ret g) -> o = o').
Proof.
  intros H. assert (R : srun sg_init [SCheck 1; SCheck 2; SMake 1 true; SStore 1; SReturn 1; SMake 2 true; SStore 2; SReturn 2] (mkSG (Some 1) 2 [] [(1, 0); (2, 1)])).
  { apply srunf_ok. vm_compute. reflexivity. }
  assert (N : NoDup (begins [SCheck 1; SCheck 2; SMake 1 true; SStore 1; SReturn 1; SMake 2 true; SStore 2; SReturn 2])) by (repeat constructor; cbn; intuition discriminate).
  discriminate (H _ _ R N 1 0 2 1 (or_introl eq_refl) (or_intror (or_introl eq_refl))).
Qed.
(** A first call that raises, the callback's, and two overlapping later ones. *)
Example C76_met : exists g, srun sg_init [SCheck 0; SMake 0 false; SCheck 1; SMake 1 true; SStore 1; SCheck 2; SCheck 3; SReturn 1; SReturn 3; SReturn 2] g /\
  g_ret g = [(1, 0); (3, 0); (2, 0)] /\ first_alone [SCheck 0; SMake 0 false; SCheck 1; SMake 1 true; SStore 1; SCheck 2; SCheck 3; SReturn 1; SReturn 3; SReturn 2].
Proof.
  eexists. split; [apply srunf_ok; vm_compute; reflexivity|]. split; [reflexivity|].
  intros pre c post E NS d.
  destruct pre as [|x1 pre]; [intros []|cbn in E; injection E as <- E].
  destruct pre as [|x2 pre]; [discriminate|cbn in E; injection E as <- E].
  destruct pre as [|x3 pre]; [cbn; intuition congruence|cbn in E; injection E as <- E].
  destruct pre as [|x4 pre]; [discriminate|cbn in E; injection E as <- E].
  destruct pre as [|x5 pre]; [discriminate|cbn in E; injection E as <- E].
  exfalso. apply (NS 1). cbn. auto 10.
Qed.
Print Assumptions C76_same_partial.
Print Assumptions C76_calls.
Print Assumptions C76_raise.
Print Assumptions C76_same_refuted.
