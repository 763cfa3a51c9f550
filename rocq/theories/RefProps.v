(** C85: inspecting variables while the playbook goes on. *)
From Verif Require Import PyBase PyDict RefModel.
Set Implicit Arguments.
Local Open Scope N_scope.
Ltac csplit := repeat match goal with |- _ /\ _ => split end.

(* ------------------------------------------------------------------ specification *)
Definition any (x : RS) : Prop := True.
(** Both threads are inside next_variable_id. *)
Definition in_alloc (v : vpc) : Prop := match v with VLoad _ | VStore _ _ => True | _ => False end.
Definition calm (x : RS) : Prop := forall f v g n w, r_m x = MAdd f v -> r_q x = QAdd g n w -> in_alloc v -> in_alloc w -> False.
Definition given (h : list rvt) : list N := flat_map (fun e => match e with EGave v _ => [v] | _ => [] end) h.

(* ------------------------------------------------------------------ invariant *)
Definition pid (v : vpc) : option N := match v with VIns vid | VApp vid => Some vid | _ => None end.
Definition pok (x : RS) (f : N) (v : vpc) : Prop :=
  match v with
  | VRead => True
  | VLoad vid => vid = r_ctr x
  | VStore vid c => vid = r_ctr x /\ c = r_ctr x
  | VIns vid => 0 < vid < r_ctr x /\ r_vars x vid = None /\ forall g, ~ In vid (r_list x g)
  | VApp vid => 0 < vid < r_ctr x /\ r_vars x vid = Some f /\ forall g, ~ In vid (r_list x g)
  end.
Record Core (x : RS) : Prop := {
  i_ctr : forall v, r_vars x v <> None -> 0 < v < r_ctr x;
  i_lst : forall g v, In v (r_list x g) -> 0 < v < r_ctr x;
  i_one : forall g g' v, In v (r_list x g) -> In v (r_list x g') -> g = g';
  i_nd : forall g, NoDup (r_list x g);
  i_live : forall g v, In g (r_live x) -> In v (r_list x g) -> r_vars x v = Some g;
  i_lt : forall g, In g (r_live x) -> 0 < g < r_next x;
  i_new : forall g, r_next x <= g \/ g = 0 -> r_list x g = [] /\ (forall v, r_vars x v <> Some g);
  i_pos : 0 < r_next x /\ 0 < r_ctr x }.
Definition del_ok (x : RS) (f : N) (i : nat) : Prop :=
  ~ In f (r_live x) /\ (i <= length (r_list x f))%nat /\
  forall j v, nth_error (r_list x f) j = Some v -> ((j < i)%nat -> r_vars x v = None) /\ ((i <= j)%nat -> r_vars x v = Some f).
Definition apart (v w : vpc) : Prop := forall a b, pid v = Some a -> pid w = Some b -> a <> b.
Record RInv (x : RS) : Prop := {
  i_core : Core x;
  i_q : forall f n v, r_q x = QAdd f n v -> pok x f v /\ 0 < f < r_next x;
  i_add : forall f v, r_m x = MAdd f v -> pok x f v /\ 0 < f < r_next x;
  i_del : forall f i, r_m x = MDel f i -> del_ok x f i;
  i_ok : r_m x <> MRaised;
  i_two : forall f v g n w, r_m x = MAdd f v -> r_q x = QAdd g n w -> apart v w }.

Lemma rinv_init : RInv r_init.
Proof.
  constructor; cbn; try discriminate. constructor; cbn; try tauto; try congruence.
  - intros g. constructor.
  - intros g _. split; [reflexivity|discriminate].
  - lia.
Qed.

Lemma upd_same {A} (m : N -> A) k a : upd m k a k = a.
Proof. unfold upd. now rewrite N.eqb_refl. Qed.
Lemma upd_other {A} (m : N -> A) k a j : j <> k -> upd m k a j = m j.
Proof. unfold upd. destruct (N.eqb_spec j k); congruence. Qed.
Lemma nodup_snoc (l : list N) a : NoDup l -> ~ In a l -> NoDup (l ++ [a]).
Proof.
  intros N H. induction N as [|b l B N IH]; cbn; [constructor; [intros []|constructor]|]. constructor.
  - intros X. apply in_app_or in X as [X|[X|[]]]; [auto|subst; apply H; now left].
  - apply IH. intros X. apply H. now right.
Qed.
Lemma in_upd_snoc (m : N -> list N) f a g v : In v (upd m f (m f ++ [a]) g) -> In v (m g) \/ (g = f /\ v = a).
Proof.
  unfold upd. destruct (N.eqb_spec g f) as [->|NE]; [|auto]. intros X. apply in_app_or in X as [X|[X|[]]]; auto.
Qed.

Lemma add_frame x f v x' v' es : add_step f v x = (x', v', es) -> r_live x' = r_live x /\ r_next x' = r_next x /\ r_m x' = r_m x /\ r_q x' = r_q x.
Proof. destruct v; cbn; intros H; injection H as <- <- <-; auto. Qed.
Lemma add_core x f v x' v' es : Core x -> pok x f v -> 0 < f < r_next x -> add_step f v x = (x', v', es) ->
  Core x' /\ (forall w, v' = Some w -> pok x' f w).
Proof.
  intros [A B C D E F G PS] P L H. destruct v as [|vid|vid c|vid|vid]; cbn in H; injection H as <- <- <-.
  - split; [constructor; auto|]. intros w X. injection X as <-. reflexivity.
  - split; [constructor; auto|]. intros w X. injection X as <-. cbn in *. auto.
  - destruct P as (-> & ->). split.
    + constructor; cbn; auto.
      * intros v X. apply A in X. lia.
      * intros g v X. apply B in X. lia.
      * lia.
    + intros w X. injection X as <-. cbn. csplit; [lia|lia| |].
      * destruct (r_vars x (r_ctr x)) as [q|] eqn:Q; [|reflexivity]. exfalso. assert (Y : r_vars x (r_ctr x) <> None) by congruence. apply A in Y. lia.
      * intros g X. apply B in X. lia.
  - destruct P as (P1 & P2 & P3). split.
    + constructor; cbn; auto.
      * intros v X. unfold upd in X. destruct (N.eqb_spec v vid) as [EQ|NE]; [rewrite EQ; exact P1|auto].
      * intros g v X Y. rewrite upd_other; [auto|]. intros ->. now apply (P3 g).
      * intros g X. destruct (G g X) as (G1 & G2). split; [exact G1|]. intros v. unfold upd. destruct (N.eqb_spec v vid) as [->|NE]; [|auto]. intros Y. injection Y as ->. lia.
    + intros w X. injection X as <-. cbn. rewrite upd_same. auto.
  - destruct P as (P1 & P2 & P3). split; [|discriminate]. constructor; cbn; auto.
    + intros g v X. apply in_upd_snoc in X as [X|(_ & ->)]; [eauto|exact P1].
    + intros g g' v X Y. apply in_upd_snoc in X as [X|(-> & ->)], Y as [Y|(-> & Z)]; subst; auto; [eauto|exfalso; eapply P3; eauto..].
    + intros g. unfold upd. destruct (N.eqb_spec g f) as [->|NE]; [|auto]. apply nodup_snoc; auto.
    + intros g v X Y. apply in_upd_snoc in Y as [Y|(-> & ->)]; auto.
    + intros g X. destruct (G g X) as (G1 & G2). split; [|exact G2]. rewrite upd_other; [exact G1|]. intros ->. lia.
Qed.
Lemma add_other x f v x' v' es g w : Core x -> pok x f v -> pok x g w -> (in_alloc v -> in_alloc w -> False) -> apart v w ->
  add_step f v x = (x', v', es) -> pok x' g w /\ (forall u, v' = Some u -> apart u w).
Proof.
  intros CO P Q NA AP H. destruct v as [|vid|vid c|vid|vid]; cbn in H; injection H as <- <- <-.
  - split; [exact Q|]. intros u X. injection X as <-. intros a b. discriminate.
  - split; [exact Q|]. intros u X. injection X as <-. intros a b. discriminate.
  - destruct P as (-> & ->). split.
    + destruct w; cbn in *; auto; try (now elim NA); destruct Q as (Q1 & Q2 & Q3); csplit; try lia; auto; lia.
    + intros u X. injection X as <-. intros a b Y Z. injection Y as <-. destruct w; try discriminate; injection Z as ->; destruct Q as (Q1 & _); lia.
  - split.
    + destruct w; cbn in *; auto; destruct Q as (Q1 & Q2 & Q3); csplit; try lia; auto; rewrite upd_other; auto; intros ->; eapply AP; reflexivity.
    + intros u X. injection X as <-. intros a b Y Z. injection Y as <-. eapply AP; [reflexivity|exact Z].
  - split; [|discriminate]. destruct w; cbn in *; auto; destruct Q as (Q1 & Q2 & Q3); csplit; try lia; auto;
      (intros k X; apply in_upd_snoc in X as [X|(-> & ->)]; [now apply (Q3 k)|eapply AP; reflexivity]).
Qed.
Lemma add_del x f v x' v' es g i : Core x -> pok x f v -> del_ok x g i -> add_step f v x = (x', v', es) -> del_ok x' g i.
Proof.
  intros CO P (D1 & D2 & D3) H. destruct v as [|vid|vid c|vid|vid]; cbn in H; injection H as <- <- <-; try (split; [exact D1|split; [exact D2|exact D3]]).
  - destruct P as (P1 & P2 & P3). split; [exact D1|]. split; [exact D2|]. cbn. intros j v X. rewrite upd_other; [eauto|]. intros ->. apply nth_error_In in X. now apply P3 in X.
  - destruct P as (P1 & P2 & P3). split; [exact D1|]. cbn. unfold upd. destruct (N.eqb_spec g f) as [->|NE]; [|auto]. split; [rewrite app_length; lia|].
    intros j v X. destruct (Nat.lt_ge_cases j (length (r_list x f))) as [L|L].
    + rewrite nth_error_app1 in X by exact L. eauto.
    + rewrite nth_error_app2 in X by exact L. destruct (j - length (r_list x f))%nat eqn:J; [|destruct n; discriminate]. injection X as <-. split; [lia|auto].
Qed.

Lemma mem_in (a : N) l : mem a l = true -> In a l.
Proof. unfold mem. intros H. apply existsb_exists in H as (b & B & E). destruct (eqb_spec a b); [subst; exact B|discriminate]. Qed.

Lemma rstep_inv x l x' es : RInv x -> calm x -> rstep x l = Some (x', es) -> RInv x'.
Proof.
  intros [CO IQ IA ID IO IT] CA H. destruct l as [|f|f| |f n|vid n|]; cbn in H.
  - destruct (r_m x) eqn:M; try discriminate. injection H as <- <-. destruct CO as [A B C D E F G PS].
    destruct (G (r_next x) (or_introl (N.le_refl _))) as (G1 & G2).
    assert (LS : forall g, upd (r_list x) (r_next x) [] g = r_list x g) by (intros g; unfold upd; destruct (N.eqb_spec g (r_next x)) as [->|]; auto).
    assert (PK : forall x' f v, r_ctr x' = r_ctr x -> r_vars x' = r_vars x -> (forall g, r_list x' g = r_list x g) -> pok x f v -> pok x' f v).
    { intros y f v E1 E2 E3. destruct v; cbn; rewrite ?E1, ?E2; auto; intros (X1 & X2 & X3); csplit; try lia; auto; intros g; rewrite E3; auto. }
    constructor; cbn; try discriminate.
    + constructor; cbn; auto.
      * intros g v. rewrite LS. eauto.
      * intros g g' v. rewrite !LS. eauto.
      * intros g. rewrite LS. auto.
      * intros g v. rewrite LS. intros X Y. apply in_app_or in X as [X|[<-|[]]]; [auto|]. rewrite G1 in Y. contradiction.
      * intros g X. apply in_app_or in X as [X|[<-|[]]]; [apply F in X; lia|lia].
      * intros g X. rewrite LS. apply G. lia.
      * lia.
    + intros f n v X. destruct (IQ f n v X) as (Y & Z). split; [|lia]. eapply PK; eauto.
  - destruct (r_m x) eqn:M; try discriminate. destruct (mem f (r_live x)) eqn:MF; [|discriminate]. injection H as <- <-. apply mem_in in MF.
    constructor; cbn; auto; try discriminate.
    + destruct CO; constructor; auto.
    + intros g v X. injection X as <- <-. split; [exact Logic.I|]. now apply (i_lt CO).
    + intros g v g' n w X _. injection X as <- <-. intros a b. discriminate.
  - destruct (r_m x) eqn:M; try discriminate. destruct (mem f (r_live x)) eqn:MF; [|discriminate]. injection H as <- <-. apply mem_in in MF.
    constructor; cbn; auto; try discriminate.
    + destruct CO as [A B C D E F G PS]. constructor; cbn; auto; intros g v; try intros X; rewrite ?filter_In in *; try (apply E; tauto); apply F; tauto.
    + intros g i X. injection X as <- <-. split; [|split; [cbn; lia|]].
      * cbn. rewrite filter_In, N.eqb_refl. intros (_ & X). discriminate.
      * cbn. intros j v X. split; [lia|]. intros _. apply (i_live CO); [exact MF|]. now apply nth_error_In in X.
  - destruct (r_m x) as [|f v|f i|] eqn:M; try discriminate.
    + destruct (add_step f v x) as ((y, v'), es') eqn:S. injection H as <- <-. destruct (IA f v eq_refl) as (P & L).
      destruct (@add_core x f v _ _ _ CO P L S) as (CO' & P'). destruct (@add_frame x f v _ _ _ S) as (F1 & F2 & F3 & F4).
      constructor; cbn; try (destruct v'; discriminate).
      * destruct CO'; constructor; auto.
      * intros g n w X. rewrite F2. destruct (IQ g n w ltac:(congruence)) as (Q & LQ). split; [|exact LQ].
        destruct (@add_other x f v y v' es' g w CO P Q) as (Q' & _); auto; [eapply CA; [exact M|rewrite <- F4; exact X]|eapply IT; [reflexivity|rewrite <- F4; exact X]].
      * intros g w X. destruct v' as [u|]; [|discriminate]. injection X as <- <-. rewrite F2. split; [|exact L]. exact (P' _ eq_refl).
      * intros g w g' n w' X Y. destruct v' as [u|]; [|discriminate]. injection X as <- <-. destruct (IQ g' n w' ltac:(congruence)) as (Q & LQ).
        destruct (@add_other x f v y (Some u) es' g' w' CO P Q) as (_ & Q'); auto; [eapply CA; [exact M|rewrite <- F4; exact Y]|eapply IT; [reflexivity|rewrite <- F4; exact Y]].
    + destruct (ID f i eq_refl) as (D1 & D2 & D3). destruct (nth_error (r_list x f) i) as [vid|] eqn:NE.
      2:{ injection H as <- <-. constructor; cbn; auto; try discriminate. destruct CO; constructor; auto. }
      destruct (D3 i vid NE) as (_ & OWN). rewrite OWN in H by lia. injection H as <- <-. destruct CO as [A B C D E F G PS].
      pose proof (nth_error_In _ _ NE) as INV.
      constructor; cbn; try discriminate.
      * constructor; cbn; auto.
        -- intros v X. unfold upd in X. destruct (N.eqb_spec v vid) as [EQ|]; [congruence|auto].
        -- intros g v X Y. rewrite upd_other; [auto|]. intros ->. apply D1. rewrite (C f g vid INV Y). exact X.
        -- intros g X. destruct (G g X) as (G1 & G2). split; [exact G1|]. intros v. unfold upd. destruct (N.eqb v vid); [discriminate|auto].
      * intros g n w X. destruct (IQ g n w X) as (Q & LQ). split; [|exact LQ]. destruct w; cbn in *; auto; destruct Q as (Q1 & Q2 & Q3); csplit; try lia; auto.
        -- unfold upd. destruct (N.eqb vid0 vid); auto.
        -- rewrite upd_other; [exact Q2|]. intros ->. now apply (Q3 f).
      * intros g k X. injection X as <- <-. assert (i < length (r_list x f))%nat by (apply nth_error_Some; congruence). split; [exact D1|]. split; [cbn; lia|]. cbn.
        intros j v X. destruct (D3 j v X) as (D4 & D5). split; intros LJ.
        -- unfold upd. destruct (N.eqb_spec v vid) as [->|NV]; [reflexivity|]. apply D4. assert (j <> i) by congruence. lia.
        -- rewrite upd_other; [apply D5; lia|]. intros ->. assert (j = i); [|lia]. apply (proj1 (NoDup_nth_error (r_list x f)) (D f) j i); [apply nth_error_Some; congruence|congruence].
  - destruct (r_q x) eqn:Q; try discriminate. destruct (mem f (r_live x)) eqn:MF; injection H as <- <-; [|constructor; auto; rewrite Q; discriminate].
    apply mem_in in MF. constructor; cbn; auto.
    + destruct CO; constructor; auto.
    + intros g k v X. destruct n; [discriminate|]. injection X as <- <- <-. split; [exact Logic.I|]. now apply (i_lt CO).
    + intros g v g' k w _ X. destruct n; [discriminate|]. injection X as <- <- <-. intros a b _. discriminate.
  - destruct (r_q x) eqn:Q; try discriminate. destruct (r_vars x vid) as [f|] eqn:MF; injection H as <- <-; [|constructor; auto; rewrite Q; discriminate].
    constructor; cbn; auto.
    + destruct CO; constructor; auto.
    + intros g k v X. destruct n; [discriminate|]. injection X as <- <- <-. split; [exact Logic.I|]. assert (N : ~ (r_next x <= f \/ f = 0)) by (intros GE; destruct (i_new CO GE) as (_ & Y); now apply (Y vid)). lia.
    + intros g v g' k w _ X. destruct n; [discriminate|]. injection X as <- <- <-. intros a b _. discriminate.
  - destruct (r_q x) as [|f n v] eqn:Q; [discriminate|]. destruct (add_step f v x) as ((y, v'), es') eqn:S. injection H as <- <-. destruct (IQ f n v eq_refl) as (P & L).
    destruct (@add_core x f v _ _ _ CO P L S) as (CO' & P'). destruct (@add_frame x f v _ _ _ S) as (F1 & F2 & F3 & F4).
    assert (SYM : forall g w, r_m x = MAdd g w -> apart v w) by (intros g w X a b Y Z W; symmetry in W; revert W; eapply IT; [exact X|reflexivity|exact Z|exact Y]).
    constructor; cbn; rewrite ?F3.
    + destruct CO'; constructor; auto.
    + intros g k w X. rewrite F2. destruct v' as [u|]; [injection X as <- <- <-; split; [exact (P' _ eq_refl)|exact L]|].
      destruct n; [discriminate|]. injection X as <- <- <-. split; [exact Logic.I|exact L].
    + intros g w X. destruct (IA g w X) as (R & LR). rewrite F2. split; [|exact LR].
      destruct (@add_other x f v y v' es' g w CO P R) as (Q' & _); eauto.
    + intros g i X. exact (@add_del x f v _ _ _ g i CO P (ID g i X) S).
    + exact IO.
    + intros g w g' k w' X Y a b Z W. destruct (IA g w X) as (R & LR). destruct (@add_other x f v y v' es' g w CO P R) as (_ & Q'); eauto.
      destruct v' as [u|]; [injection Y as <- <- <-; intros V; symmetry in V; revert V; eapply Q'; eauto|].
      destruct n; [discriminate|]. injection Y as <- <- <-. discriminate.
Qed.

(* ------------------------------------------------------------------ histories *)
Lemma run_ok ok x h x' : rrun ok x h x' -> ok x'.
Proof. intros R. destruct R; assumption. Qed.
Lemma run_inv h x : rrun calm r_init h x -> RInv x.
Proof.
  intros R. remember r_init as x0. induction R as [x O|x h x1 l x2 es R IH E O]; subst; [exact rinv_init|].
  eapply rstep_inv; [apply IH; reflexivity|eapply run_ok; exact R|exact E].
Qed.
Lemma rstep_one x l x' es : rstep x l = Some (x', es) -> es = [] \/ exists e, es = [e].
Proof.
  intros H. assert (ADD : forall f v y v' es', add_step f v x = (y, v', es') -> es' = [] \/ exists e, es' = [e]) by (intros f v y v' es' S; destruct v; cbn in S; injection S as _ _ <-; eauto).
  destruct l as [|f|f| |f n|vid n|]; cbn in H.
  - destruct (r_m x); try discriminate. injection H as _ <-. eauto.
  - destruct (r_m x); try discriminate. destruct (mem f (r_live x)); [|discriminate]. injection H as _ <-. eauto.
  - destruct (r_m x); try discriminate. destruct (mem f (r_live x)); [|discriminate]. injection H as _ <-. eauto.
  - destruct (r_m x) as [|f v|f i|]; try discriminate.
    + destruct (add_step f v x) as ((y, v'), es') eqn:S. injection H as _ <-. eauto.
    + destruct (nth_error _ _) as [vid|]; [destruct (r_vars x vid)|]; injection H as _ <-; eauto.
  - destruct (r_q x); try discriminate. destruct (mem f (r_live x)); injection H as _ <-; eauto.
  - destruct (r_q x); try discriminate. destruct (r_vars x vid); injection H as _ <-; eauto.
  - destruct (r_q x) as [|f n v]; try discriminate. destruct (add_step f v x) as ((y, v'), es') eqn:S. injection H as _ <-. eauto.
Qed.
Lemma split_snoc {A} (h pre : list A) e x post : h ++ [e] = pre ++ x :: post -> (post = [] /\ pre = h /\ x = e) \/ exists post', post = post' ++ [e] /\ h = pre ++ x :: post'.
Proof.
  intros H. destruct post as [|y post] using rev_ind; [left|right; clear IHpost].
  - apply app_inj_tail in H as (-> & ->). auto.
  - change (pre ++ x :: post ++ [y]) with (pre ++ (x :: post) ++ [y]) in H. rewrite app_assoc in H. apply app_inj_tail in H as (-> & ->). eauto.
Qed.
(** What holds of every step that shows an event holds of every event of a run. *)
Lemma at_event (P : list rvt -> rvt -> Prop) : (forall h x l x' e, rrun calm r_init h x -> rstep x l = Some (x', [e]) -> calm x' -> P h e) ->
  forall h x, rrun calm r_init h x -> forall pre e post, h = pre ++ e :: post -> P pre e.
Proof.
  intros ST h x R. remember r_init as x0. induction R as [x O|x h x1 l x2 es R IH E O]; subst.
  - intros [|? ?] e post X; discriminate.
  - intros pre e post X. destruct (rstep_one _ _ E) as [-> |(e0 & ->)]; [rewrite app_nil_r in X; eauto|].
    apply split_snoc in X as [(_ & -> & ->)|(post' & _ & X)]; [eapply ST; eauto|eauto].
Qed.

Record HI (x : RS) (h : list rvt) : Prop := {
  h_given : forall v g, In (EGave v g) h <-> In v (r_list x g);
  h_nd : NoDup (given h);
  h_pop : forall g, 0 < g < r_next x -> In g (r_live x) \/ In (EPop g) h }.
Lemma in_given v h : In v (given h) <-> exists g, In (EGave v g) h.
Proof.
  unfold given. rewrite in_flat_map. split.
  - intros (e & E & X). destruct e; try contradiction. destruct X as [-> |[]]. eauto.
  - intros (g & X). exists (EGave v g). split; [exact X|now left].
Qed.
Lemma given_app a b : given (a ++ b) = given a ++ given b. Proof. apply flat_map_app. Qed.
Lemma rstep_hi x l x' es h : RInv x -> HI x h -> rstep x l = Some (x', es) -> HI x' (h ++ es).
Proof.
  intros I [HG HN HP] H.
  assert (QUIET : (forall g v, In v (r_list x' g) <-> In v (r_list x g)) -> given es = [] -> (forall g, In g (r_live x) -> In g (r_live x') \/ In (EPop g) es) ->
     (forall g, 0 < g < r_next x' -> 0 < g < r_next x \/ In g (r_live x')) -> HI x' (h ++ es)).
  { intros E1 E2 E3 E4. constructor.
    - intros v g. rewrite E1, <- HG, in_app_iff. split; [|tauto]. intros [X|X]; [exact X|]. exfalso. assert (Y : In v (given es)) by (apply in_given; eauto). rewrite E2 in Y. contradiction.
    - rewrite given_app, E2, app_nil_r. exact HN.
    - intros g L. rewrite in_app_iff. destruct (E4 g L) as [L'|L']; [|auto]. destruct (HP g L') as [X|X]; [destruct (E3 g X)|]; auto. }
  assert (ADD : forall f v y v' es', pok x f v -> 0 < f < r_next x -> add_step f v x = (y, v', es') -> forall z, r_list z = r_list y -> r_live z = r_live y -> r_next z = r_next y -> es = es' -> x' = z -> HI x' (h ++ es)).
  { intros f v y v' es' P L S z Z1 Z2 Z3 -> ->. destruct (@add_frame x f v _ _ _ S) as (F1 & F2 & _ & _).
    destruct v as [|vid|vid c|vid|vid]; cbn in S; injection S as <- <- <-; cbn in *;
      try (apply QUIET; [intros g v; now rewrite Z1|reflexivity|intros g; rewrite Z2; auto|intros g; rewrite Z3; auto]).
    destruct P as (P1 & P2 & P3). constructor.
    - intros v g. rewrite Z1, in_app_iff, HG. split.
      + intros [X|[X|[]]]; [|injection X as <- <-; rewrite upd_same; apply in_or_app; right; now left].
        unfold upd. destruct (N.eqb_spec g f) as [->|]; [apply in_or_app; now left|exact X].
      + intros X. apply in_upd_snoc in X as [X|(-> & ->)]; [auto|right; now left].
    - rewrite given_app. cbn. apply nodup_snoc; [exact HN|]. intros X. apply in_given in X as (g & X). apply HG in X. now apply (P3 g).
    - intros g. rewrite Z2, Z3, in_app_iff. intros X. destruct (HP g X); auto. }
  destruct l as [|f|f| |f n|vid n|]; cbn in H.
  - destruct (r_m x); try discriminate. injection H as <- <-. apply QUIET; cbn; auto.
    + intros g v. unfold upd. destruct (N.eqb_spec g (r_next x)) as [->|]; [|tauto]. destruct (i_new (i_core I) (or_introl (N.le_refl _))) as (-> & _). tauto.
    + intros g X. left. apply in_or_app. auto.
    + intros g X. destruct (N.eq_dec g (r_next x)) as [->|]; [right; apply in_or_app; right; now left|left; lia].
  - destruct (r_m x); try discriminate. destruct (mem f (r_live x)); [|discriminate]. injection H as <- <-. apply QUIET; cbn; auto; tauto.
  - destruct (r_m x); try discriminate. destruct (mem f (r_live x)); [|discriminate]. injection H as <- <-. apply QUIET; cbn; auto; [tauto|].
    intros g X. destruct (N.eq_dec g f) as [->|NE]; [auto|left; apply filter_In; split; [exact X|]]. apply negb_true_iff. now apply N.eqb_neq.
  - destruct (r_m x) as [|f v|f i|] eqn:M; try discriminate.
    + destruct (add_step f v x) as ((y, v'), es') eqn:S. injection H as <- <-. destruct (i_add I M) as (P & L). eapply (@ADD f v y v' es' P L S (with_m _ y)); reflexivity.
    + destruct (nth_error _ _) as [vid|]; [destruct (r_vars x vid)|]; injection H as <- <-; apply QUIET; cbn; auto; tauto.
  - destruct (r_q x); try discriminate. destruct (mem f (r_live x)); injection H as <- <-; apply QUIET; cbn; auto; tauto.
  - destruct (r_q x); try discriminate. destruct (r_vars x vid); injection H as <- <-; apply QUIET; cbn; auto; tauto.
  - destruct (r_q x) as [|f n v] eqn:Q; try discriminate. destruct (add_step f v x) as ((y, v'), es') eqn:S. injection H as <- <-. destruct (i_q I Q) as (P & L). eapply (@ADD f v y v' es' P L S (with_q _ y)); reflexivity.
Qed.
Lemma run_hi h x : rrun calm r_init h x -> HI x h.
Proof.
  intros R. remember r_init as x0. induction R as [x O|x h x1 l x2 es R IH E O]; subst.
  - constructor; cbn; [tauto|constructor|]. intros g X. lia.
  - eapply rstep_hi; [eapply run_inv; exact R|auto|exact E].
Qed.

(* ------------------------------------------------------------------ theorems *)
(** As long as the two threads are not both choosing an id, the strategy thread never
    fails over the variables of a frame, whatever the client asks for and when. *)
Theorem C85_playbook_goes_on_partial h x : rrun calm r_init h x -> ~ In ERaised h.
Proof.
  intros R X. apply in_split in X as (pre & post & X). revert pre post X.
  assert (G : forall pre e post, h = pre ++ e :: post -> e <> ERaised); [|intros pre post X; now apply (G pre ERaised post)].
  revert h x R. apply (at_event (fun _ e => e <> ERaised)). intros h x l x' e R E O ->.
  assert (I : RInv x') by (eapply run_inv; econstructor; eassumption). apply (i_ok I). clear I R O.
  assert (ADD : forall f v y v' es', add_step f v x = (y, v', es') -> es' <> [ERaised]) by (intros f v y v' es' S; destruct v; cbn in S; injection S as _ _ <-; discriminate).
  destruct l as [|f|f| |f n|vid n|]; cbn in E.
  - destruct (r_m x); discriminate.
  - destruct (r_m x); try discriminate. destruct (mem f (r_live x)); discriminate.
  - destruct (r_m x); try discriminate. destruct (mem f (r_live x)); discriminate.
  - destruct (r_m x) as [|f v|f i|]; try discriminate.
    + destruct (add_step f v x) as ((y, v'), es') eqn:S. injection E as <- ->. now elim (ADD _ _ _ _ _ S).
    + destruct (nth_error _ _) as [vid|]; [destruct (r_vars x vid)|]; try discriminate. injection E as <-. reflexivity.
  - destruct (r_q x); try discriminate. destruct (mem f (r_live x)); discriminate.
  - destruct (r_q x); try discriminate. destruct (r_vars x vid); discriminate.
  - destruct (r_q x) as [|f n v]; try discriminate. destruct (add_step f v x) as ((y, v'), es') eqn:S. injection E as <- ->. now elim (ADD _ _ _ _ _ S).
Qed.
Print Assumptions C85_playbook_goes_on_partial.

(** Then no reference is given out twice, and none is 0, which means "no children". *)
Theorem C85_references_distinct_partial h x : rrun calm r_init h x -> NoDup (given h) /\ ~ In 0 (given h).
Proof.
  intros R. split; [exact (h_nd (run_hi R))|]. intros X. apply in_given in X as (g & X). apply (h_given (run_hi R)) in X.
  apply (i_lst (i_core (run_inv R))) in X. lia.
Qed.
Print Assumptions C85_references_distinct_partial.

Definition shown (x : RS) (e : rvt) : Prop :=
  match e with
  | EMissing v => r_vars x v = None
  | EFound v => r_vars x v <> None
  | EDone g => exists i, r_m x = MDel g i /\ nth_error (r_list x g) i = None
  | _ => True
  end.
Lemma step_shown x l x' e : rstep x l = Some (x', [e]) -> shown x e.
Proof.
  assert (ADD : forall f v y v' es' e, add_step f v x = (y, v', es') -> es' = [e] -> shown x e) by (intros f v y v' es' e0 S W; destruct v; cbn in S; injection S as _ _ <-; try discriminate; injection W as <-; exact Logic.I).
  intros E. destruct l as [|f|f| |f n|vid n|]; cbn in E.
  - destruct (r_m x); try discriminate. injection E as _ <-. exact Logic.I.
  - destruct (r_m x); try discriminate. destruct (mem f (r_live x)); [|discriminate]. injection E as _ <-. exact Logic.I.
  - destruct (r_m x); try discriminate. destruct (mem f (r_live x)); [|discriminate]. injection E as _ <-. exact Logic.I.
  - destruct (r_m x) as [|f v|f i|] eqn:M; try discriminate.
    + destruct (add_step f v x) as ((y, v'), es') eqn:S. injection E as _ W. eapply ADD; eauto.
    + destruct (nth_error _ _) as [vid|] eqn:NE; [destruct (r_vars x vid)|]; try discriminate; injection E as _ <-; cbn; eauto.
  - destruct (r_q x); try discriminate. destruct (mem f (r_live x)); injection E as _ <-; exact Logic.I.
  - destruct (r_q x); try discriminate. destruct (r_vars x vid) eqn:V; injection E as _ <-; cbn; congruence.
  - destruct (r_q x) as [|f n v]; try discriminate. destruct (add_step f v x) as ((y, v'), es') eqn:S. injection E as _ W. eapply ADD; eauto.
Qed.

(** A reference is answered as long as its frame is there. *)
Theorem C85_valid_while_frame_partial h x pre v g post : rrun calm r_init h x -> h = pre ++ EMissing v :: post ->
  In (EGave v g) pre -> In (EPop g) pre.
Proof.
  intros R E X. refine (@at_event (fun pre e => forall v, e = EMissing v -> In (EGave v g) pre -> In (EPop g) pre) _ h x R pre (EMissing v) post E v eq_refl X).
  clear. intros h x l x' e R E _ v -> X. apply step_shown in E. cbn in E. pose proof (run_inv R) as I. destruct (run_hi R) as [HG _ HP].
  apply HG in X. assert (BORN : 0 < g < r_next x).
  { assert (N : ~ (r_next x <= g \/ g = 0)) by (intros GE; destruct (i_new (i_core I) GE) as (Y & _); rewrite Y in X; contradiction). lia. }
  destruct (HP g BORN) as [L|L]; [|exact L]. exfalso. rewrite (i_live (i_core I) g v L X) in E. discriminate.
Qed.
Print Assumptions C85_valid_while_frame_partial.

Definition dead (x : RS) (v : N) : Prop := r_vars x v = None /\ exists g, In v (r_list x g).
Lemma dead_step x l x' es v : RInv x -> rstep x l = Some (x', es) -> dead x v -> dead x' v.
Proof.
  intros I H (D & g & DG).
  assert (ADD : forall f u y u' es', pok x f u -> add_step f u x = (y, u', es') -> dead y v).
  { intros f u y u' es' P S. destruct u as [|vid|vid c|vid|vid]; cbn in S; injection S as <- <- <-; try (split; [exact D|exists g; exact DG]).
    - destruct P as (P1 & P2 & P3). split; [|exists g; exact DG]. cbn. rewrite upd_other; [exact D|]. intros ->. now apply (P3 g).
    - split; [exact D|]. exists g. cbn. unfold upd. destruct (N.eqb_spec g f) as [EQ|]; [rewrite <- EQ; apply in_or_app; now left|exact DG]. }
  destruct l as [|f|f| |f n|vid n|]; cbn in H.
  - destruct (r_m x); try discriminate. injection H as <- <-. split; [exact D|]. exists g. cbn. unfold upd. destruct (N.eqb_spec g (r_next x)) as [->|]; [|exact DG].
    destruct (i_new (i_core I) (or_introl (N.le_refl _))) as (Y & _). rewrite Y in DG. contradiction.
  - destruct (r_m x); try discriminate. destruct (mem f (r_live x)); [|discriminate]. injection H as <- <-. split; [exact D|exists g; exact DG].
  - destruct (r_m x); try discriminate. destruct (mem f (r_live x)); [|discriminate]. injection H as <- <-. split; [exact D|exists g; exact DG].
  - destruct (r_m x) as [|f u|f i|] eqn:M; try discriminate.
    + destruct (add_step f u x) as ((y, u'), es') eqn:S. injection H as <- <-. destruct (i_add I M) as (P & _). destruct (ADD _ _ _ _ _ P S) as (A & B). split; assumption.
    + destruct (nth_error _ _) as [vid|]; [destruct (r_vars x vid)|]; injection H as <- <-; (split; [|exists g; exact DG]); try exact D. cbn. unfold upd. destruct (N.eqb v vid); auto.
  - destruct (r_q x); try discriminate. destruct (mem f (r_live x)); injection H as <- <-; (split; [exact D|exists g; exact DG]).
  - destruct (r_q x); try discriminate. destruct (r_vars x vid); injection H as <- <-; (split; [exact D|exists g; exact DG]).
  - destruct (r_q x) as [|f n u] eqn:Q; try discriminate. destruct (add_step f u x) as ((y, u'), es') eqn:S. injection H as <- <-. destruct (i_q I Q) as (P & _). destruct (ADD _ _ _ _ _ P S) as (A & B). split; assumption.
Qed.
Lemma run_dead h x : rrun calm r_init h x -> forall pre g post v, h = pre ++ EDone g :: post -> In (EGave v g) pre -> dead x v.
Proof.
  intros R. remember r_init as x0. induction R as [x O|x h x1 l x2 es R IH E O]; subst.
  - intros [|? ?] g post v X; discriminate.
  - specialize (IH eq_refl). pose proof (run_inv R) as I. intros pre g post v X G.
    destruct (rstep_one _ _ E) as [-> |(e & ->)]; [rewrite app_nil_r in X; eapply dead_step; [exact I|exact E|eauto]|].
    apply split_snoc in X as [(_ & -> & <-)|(post' & _ & X)]; [|eapply dead_step; [exact I|exact E|eauto]].
    eapply dead_step; [exact I|exact E|]. destruct (step_shown _ _ E) as (i & M & NE). apply (h_given (run_hi R)) in G.
    destruct (i_del I M) as (_ & _ & D3). split; [|exists g; exact G]. apply In_nth_error in G as (j & J). destruct (D3 j v J) as (D4 & _). apply D4.
    apply nth_error_None in NE. assert (j < length (r_list x1 g))%nat by (apply nth_error_Some; congruence). lia.
Qed.
(** When a frame's variables have been deleted, no reference given out for it before is
    answered again. *)
Theorem C85_dead_after_frame_partial h x pre g mid v post : rrun calm r_init h x -> h = pre ++ EDone g :: mid ++ EFound v :: post ->
  ~ In (EGave v g) pre.
Proof.
  intros R E X. refine (@at_event (fun pre' e => forall v, e = EFound v -> forall pre mid, pre' = pre ++ EDone g :: mid -> In (EGave v g) pre -> False) _ h x R (pre ++ EDone g :: mid) (EFound v) post _ v eq_refl pre mid eq_refl X).
  - clear. intros h x l x' e R E _ v -> pre mid EH X. apply step_shown in E. cbn in E. destruct (run_dead R _ _ _ _ EH X) as (D & _). congruence.
  - rewrite E, <- app_assoc. reflexivity.
Qed.
Print Assumptions C85_dead_after_frame_partial.

(** A frame whose removal is over. *)
Definition gone (x : RS) (g : N) : Prop := 0 < g < r_next x /\ ~ In g (r_live x) /\ (forall i, r_m x <> MDel g i) /\ (forall u, r_m x <> MAdd g u).
Lemma filter_not (f g : N) l : In g (filter (fun k => negb (N.eqb k f)) l) -> In g l.
Proof. intros X. now apply filter_In in X. Qed.
Lemma gone_step x l x' es g : rstep x l = Some (x', es) -> gone x g -> gone x' g.
Proof.
  intros H (B & L & M & A).
  assert (ADD : forall f u y u' es', add_step f u x = (y, u', es') -> r_live y = r_live x /\ r_next y = r_next x /\ r_m y = r_m x) by (intros f u y u' es' S; destruct (@add_frame x f u _ _ _ S) as (? & ? & ? & ?); auto).
  destruct l as [|f|f| |f n|vid n|]; cbn in H.
  - destruct (r_m x); try discriminate. injection H as <- <-. unfold gone; cbn. csplit; try lia; try discriminate. intros X. apply in_app_or in X as [X|[X|[]]]; [auto|lia].
  - destruct (r_m x) eqn:Q; try discriminate. destruct (mem f (r_live x)) eqn:F; [|discriminate]. injection H as <- <-. apply mem_in in F.
    unfold gone; cbn. csplit; try tauto; try discriminate. intros u X. injection X as -> <-. auto.
  - destruct (r_m x); try discriminate. destruct (mem f (r_live x)) eqn:F; [|discriminate]. injection H as <- <-. apply mem_in in F.
    unfold gone; cbn. csplit; try tauto; try discriminate; [|intros i X; injection X as -> <-; auto]. intros X. apply filter_not in X. auto.
  - destruct (r_m x) as [|f u|f i|] eqn:Q; try discriminate.
    + destruct (add_step f u x) as ((y, u'), es') eqn:S. injection H as <- <-. destruct (ADD _ _ _ _ _ S) as (U & V & W). unfold gone; cbn. rewrite U, V.
      destruct u' as [u'|]; csplit; try tauto; try discriminate. intros u0 X. injection X as -> <-. now elim (A u).
    + assert (NE : f <> g) by (intros ->; now elim (M i)).
      destruct (nth_error _ _) as [vid|]; [destruct (r_vars x vid)|]; injection H as <- <-; unfold gone; cbn; csplit; try tauto; try discriminate; intros j X; injection X as X _; auto.
  - destruct (r_q x); try discriminate. destruct (mem f (r_live x)); injection H as <- <-; unfold gone; cbn; tauto.
  - destruct (r_q x); try discriminate. destruct (r_vars x vid); injection H as <- <-; unfold gone; cbn; tauto.
  - destruct (r_q x) as [|f n u] eqn:Q; try discriminate. destruct (add_step f u x) as ((y, u'), es') eqn:S. injection H as <- <-. destruct (ADD _ _ _ _ _ S) as (U & V & W).
    unfold gone; cbn. rewrite U, V, W. tauto.
Qed.
Lemma late_step x l x' es v g : RInv x -> rstep x l = Some (x', es) -> gone x g -> r_vars x v = Some g -> r_vars x' v = Some g.
Proof.
  intros I H (B & L & M & A) V.
  assert (ADD : forall f u y u' es', pok x f u -> add_step f u x = (y, u', es') -> r_vars y v = Some g).
  { intros f u y u' es' P S. destruct u as [|vid|vid c|vid|vid]; cbn in S; injection S as <- <- <-; try exact V.
    destruct P as (_ & P2 & _). cbn. rewrite upd_other; [exact V|]. intros ->. congruence. }
  destruct l as [|f|f| |f n|vid n|]; cbn in H.
  - destruct (r_m x); try discriminate. injection H as <- <-. exact V.
  - destruct (r_m x); try discriminate. destruct (mem f (r_live x)); [|discriminate]. injection H as <- <-. exact V.
  - destruct (r_m x); try discriminate. destruct (mem f (r_live x)); [|discriminate]. injection H as <- <-. exact V.
  - destruct (r_m x) as [|f u|f i|] eqn:Q; try discriminate.
    + destruct (add_step f u x) as ((y, u'), es') eqn:S. injection H as <- <-. destruct (i_add I Q) as (P & _). cbn. eapply ADD; eassumption.
    + destruct (nth_error _ _) as [vid|] eqn:NE; [destruct (r_vars x vid) eqn:W|]; injection H as <- <-; try exact V. cbn. rewrite upd_other; [exact V|]. intros ->.
      destruct (i_del I Q) as (_ & _ & D). destruct (D i vid NE) as (_ & D2). rewrite D2 in V by lia. injection V as ->. now elim (M i).
  - destruct (r_q x); try discriminate. destruct (mem f (r_live x)); injection H as <- <-; exact V.
  - destruct (r_q x); try discriminate. destruct (r_vars x vid); injection H as <- <-; exact V.
  - destruct (r_q x) as [|f n u] eqn:Q; try discriminate. destruct (add_step f u x) as ((y, u'), es') eqn:S. injection H as <- <-. destruct (i_q I Q) as (P & _). cbn. eapply ADD; eassumption.
Qed.
Lemma run_del h x : rrun calm r_init h x -> forall g i, r_m x = MDel g i -> 0 < g < r_next x.
Proof.
  intros R. remember r_init as x0. induction R as [x O|x h x1 l x2 es R IH E O]; subst; [discriminate|].
  specialize (IH eq_refl). pose proof (run_inv R) as I. intros g i X.
  assert (ADD : forall f u y u' es', add_step f u x1 = (y, u', es') -> r_next y = r_next x1 /\ r_m y = r_m x1) by (intros f u y u' es' S; destruct (@add_frame x1 f u _ _ _ S) as (? & ? & ? & ?); auto).
  destruct l as [|f|f| |f n|vid n|]; cbn in E.
  - destruct (r_m x1); try discriminate. injection E as <- <-. discriminate.
  - destruct (r_m x1); try discriminate. destruct (mem f (r_live x1)); [|discriminate]. injection E as <- <-. discriminate.
  - destruct (r_m x1); try discriminate. destruct (mem f (r_live x1)) eqn:F; [|discriminate]. injection E as <- <-. injection X as <- _. apply (i_lt (i_core I)). now apply mem_in.
  - destruct (r_m x1) as [|f u|f j|] eqn:Q; try discriminate.
    + destruct (add_step f u x1) as ((y, u'), es') eqn:S. injection E as <- <-. destruct u'; discriminate.
    + destruct (nth_error _ _) as [vid|]; [destruct (r_vars x1 vid)|]; injection E as <- <-; try discriminate. injection X as -> _. cbn. eapply IH; reflexivity.
  - destruct (r_q x1); try discriminate. destruct (mem f (r_live x1)); injection E as <- <-; eapply IH; exact X.
  - destruct (r_q x1); try discriminate. destruct (r_vars x1 vid); injection E as <- <-; eapply IH; exact X.
  - destruct (r_q x1) as [|f n u] eqn:Q; try discriminate. destruct (add_step f u x1) as ((y, u'), es') eqn:S. injection E as <- <-. destruct (ADD _ _ _ _ _ S) as (V & W).
    cbn in *. rewrite V. rewrite W in X. eapply IH; exact X.
Qed.
Lemma run_gone h x : rrun calm r_init h x -> forall g, In (EDone g) h -> gone x g.
Proof.
  intros R. remember r_init as x0. induction R as [x O|x h x1 l x2 es R IH E O]; subst; intros g X; [contradiction|].
  specialize (IH eq_refl). pose proof (run_inv R) as I. apply in_app_or in X as [X|X]; [eapply gone_step; [exact E|auto]|].
  destruct (rstep_one _ _ E) as [-> |(e & ->)]; [contradiction|]. destruct X as [-> |[]].
  destruct l as [|f|f| |f n|vid n|]; cbn in E.
  - destruct (r_m x1); discriminate.
  - destruct (r_m x1); try discriminate. destruct (mem f (r_live x1)); discriminate.
  - destruct (r_m x1); try discriminate. destruct (mem f (r_live x1)); discriminate.
  - destruct (r_m x1) as [|f u|f i|] eqn:Q; try discriminate; [destruct u; discriminate|].
    destruct (nth_error _ _) as [vid|] eqn:NE; [destruct (r_vars x1 vid); discriminate|]. injection E as <- <-.
    destruct (i_del I Q) as (D & _). unfold gone; cbn. split; [eapply run_del; eassumption|]. csplit; try discriminate; exact D.
  - destruct (r_q x1); try discriminate. destruct (mem f (r_live x1)); discriminate.
  - destruct (r_q x1); try discriminate. destruct (r_vars x1 vid); discriminate.
  - destruct (r_q x1) as [|f n u]; try discriminate. destruct u; discriminate.
Qed.
Lemma gave_var x l x' v g : RInv x -> rstep x l = Some (x', [EGave v g]) -> r_vars x v = Some g.
Proof.
  intros I H.
  assert (ADD : forall f u y u' es', pok x f u -> add_step f u x = (y, u', es') -> es' = [EGave v g] -> r_vars x v = Some g).
  { intros f u y u' es' P S W. destruct u as [|vid|vid c|vid|vid]; cbn in S; injection S as _ _ <-; try discriminate. injection W as -> ->. apply P. }
  destruct l as [|f|f| |f n|vid n|]; cbn in H.
  - destruct (r_m x); discriminate.
  - destruct (r_m x); try discriminate. destruct (mem f (r_live x)); discriminate.
  - destruct (r_m x); try discriminate. destruct (mem f (r_live x)); discriminate.
  - destruct (r_m x) as [|f u|f i|] eqn:Q; try discriminate.
    + destruct (add_step f u x) as ((y, u'), es') eqn:S. injection H as _ W. destruct (i_add I Q) as (P & _). eapply ADD; eassumption.
    + destruct (nth_error _ _) as [vid|]; [destruct (r_vars x vid)|]; discriminate.
  - destruct (r_q x); try discriminate. destruct (mem f (r_live x)); discriminate.
  - destruct (r_q x); try discriminate. destruct (r_vars x vid); discriminate.
  - destruct (r_q x) as [|f n u] eqn:Q; try discriminate. destruct (add_step f u x) as ((y, u'), es') eqn:S. injection H as _ W. destruct (i_q I Q) as (P & _). eapply ADD; eassumption.
Qed.
Lemma run_late h x : rrun calm r_init h x -> forall pre g mid v, h = pre ++ EDone g :: mid -> In (EGave v g) mid -> r_vars x v = Some g.
Proof.
  intros R. remember r_init as x0. induction R as [x O|x h x1 l x2 es R IH E O]; subst.
  - intros [|? ?] g mid v X; discriminate.
  - specialize (IH eq_refl). pose proof (run_inv R) as I. intros pre g mid v X G.
    destruct (rstep_one _ _ E) as [-> |(e & ->)].
    + rewrite app_nil_r in X. eapply late_step; [exact I|exact E| |eauto]. eapply run_gone; [exact R|]. rewrite X. apply in_or_app. right. now left.
    + apply split_snoc in X as [(-> & _ & _)|(mid' & -> & X)]; [contradiction|].
      eapply late_step; [exact I|exact E| |].
      * eapply run_gone; [exact R|]. rewrite X. apply in_or_app. right. now left.
      * apply in_app_or in G as [G|[-> |[]]]; [eauto|]. eapply gave_var; [exact I|exact E].
Qed.
(** A reference given out for a frame whose variables have already been deleted is never
    deleted: it is answered for the rest of the session. *)
Theorem C85_late_reference_stays_partial h x pre g mid v post : rrun calm r_init h x ->
  h = pre ++ EDone g :: mid ++ EGave v g :: post -> ~ In (EMissing v) post.
Proof.
  intros R E X. apply in_split in X as (p1 & p2 & ->).
  refine (@at_event (fun pre' e => e = EMissing v -> forall pre mid, pre' = pre ++ EDone g :: mid -> In (EGave v g) mid -> False) _ h x R
    (pre ++ EDone g :: (mid ++ EGave v g :: p1)) (EMissing v) p2 _ eq_refl pre _ eq_refl _).
  - clear. intros h x l x' e R E _ -> pre mid EH X. apply step_shown in E. cbn in E. rewrite (run_late R _ _ _ _ EH X) in E. discriminate.
  - rewrite E, <- app_assoc. cbn. rewrite <- app_assoc. reflexivity.
  - apply in_or_app. right. now left.
Qed.
Print Assumptions C85_late_reference_stays_partial.

(** The condition holds when no task stops with its result: all of the above then holds
    of every schedule. *)
Theorem C85_no_exception_stop_partial h x : rrun any r_init h x -> (forall f, ~ In (EResult f) h) -> rrun calm r_init h x.
Proof.
  intros R. assert (G : (forall f, ~ In (EResult f) h) -> rrun calm r_init h x /\ forall f v, r_m x <> MAdd f v); [|intros N; now apply G].
  remember r_init as x0. induction R as [x O|x h x1 l x2 es R IH E O]; subst; intros N.
  - split; [constructor; intros f v g n w X; discriminate|discriminate].
  - destruct (IH eq_refl) as (R' & NA); [intros f X; apply (N f), in_or_app; auto|].
    assert (NA' : forall f v, r_m x2 <> MAdd f v).
    { assert (ADD : forall f v y v' es', add_step f v x1 = (y, v', es') -> r_m y = r_m x1) by (intros f v y v' es' S; now destruct (@add_frame x1 f v _ _ _ S) as (_ & _ & F & _)).
      destruct l as [|f|f| |f n|vid n|]; cbn in E.
      - destruct (r_m x1); try discriminate. injection E as <- <-. discriminate.
      - destruct (r_m x1); try discriminate. destruct (mem f (r_live x1)); [|discriminate]. injection E as <- <-. exfalso. apply (N f), in_or_app. right. now left.
      - destruct (r_m x1); try discriminate. destruct (mem f (r_live x1)); [|discriminate]. injection E as <- <-. discriminate.
      - destruct (r_m x1) as [|f v|f i|] eqn:M; try discriminate; [now elim (NA f v)|].
        destruct (nth_error _ _) as [vid|]; [destruct (r_vars x1 vid)|]; injection E as <- <-; discriminate.
      - destruct (r_q x1); try discriminate. destruct (mem f (r_live x1)); injection E as <- <-; exact NA.
      - destruct (r_q x1); try discriminate. destruct (r_vars x1 vid); injection E as <- <-; exact NA.
      - destruct (r_q x1) as [|f n v]; try discriminate. destruct (add_step f v x1) as ((y, v'), es') eqn:S. injection E as <- <-. cbn. rewrite (ADD _ _ _ _ _ S). exact NA. }
    split; [|exact NA']. econstructor; [exact R'|exact E|]. intros f v g n w X. now elim (NA' f v).
Qed.
Print Assumptions C85_no_exception_stop_partial.

(* ------------------------------------------------------------------ concrete runs *)
Fixpoint rgo (x : RS) (h : list rvt) (ls : list rlabel) : option (RS * list rvt) :=
  match ls with
  | [] => Some (x, h)
  | l :: ls => match rstep x l with Some (x', es) => rgo x' (h ++ es) ls | None => None end
  end.
Lemma rgo_run ls : forall x0 x h x' h', rrun any x0 h x -> rgo x h ls = Some (x', h') -> rrun any x0 h' x'.
Proof.
  induction ls as [|l ls IH]; intros x0 x h x' h' R E; cbn in E; [injection E as <- <-; exact R|].
  destruct (rstep x l) as [(x1, es)|] eqn:S; [|discriminate]. eapply IH; [|exact E]. econstructor; [exact R|exact S|exact Logic.I].
Qed.
Ltac runs ls :=
  destruct (rgo r_init [] ls) as [(x, h)|] eqn:E; [|vm_compute in E; discriminate];
  pose proof (rgo_run ls (@rrun_nil any r_init Logic.I) E) as R; vm_compute in E; injection E as <- <-.

(** A task stops with its result while a scopes request is being answered: both take the
    same id, and the playbook fails over it when the frame is removed. *)
Theorem C85_playbook_breaks_refuted : exists h x, rrun any r_init h x /\ In ERaised h /\ given h = [1; 1].
Proof.
  runs [LStart; LResult 1; LMain; LScopes 1 1; LReq; LMain; LMain; LReq; LReq; LMain; LMain; LReq; LReq; LPop 1; LMain; LMain].
  eexists _, _. split; [exact R|]. split; [cbn; tauto|reflexivity].
Qed.
Print Assumptions C85_playbook_breaks_refuted.

(** A reference can be given out after its frame and all its variables were deleted; it is
    answered afterwards. *)
Theorem C85_stale_reference_refuted : exists h x pre mid post, rrun calm r_init h x /\ h = pre ++ EDone 1 :: mid ++ EFound 1 :: post /\ In (EGave 1 1) mid.
Proof.
  runs [LStart; LScopes 1 1; LReq; LReq; LReq; LPop 1; LMain; LReq; LReq; LVars 1 0].
  eexists _, _, [EFrame 1; EScopes 1; EPop 1], [EGave 1 1], []. split; [|split; [reflexivity|now left]].
  apply C85_no_exception_stop_partial; [exact R|]. intros f X. cbn in X. repeat destruct X as [X|X]; try discriminate. contradiction.
Qed.
Print Assumptions C85_stale_reference_refuted.

(** Calm runs with an exception stop, requests, removal of the frame, and both answers. *)
Definition alloc_b (v : vpc) : bool := match v with VLoad _ | VStore _ _ => true | _ => false end.
Definition calm_b (x : RS) : bool := match r_m x, r_q x with MAdd _ v, QAdd _ _ w => negb (alloc_b v && alloc_b w) | _, _ => true end.
Lemma calm_b_ok x : calm_b x = true -> calm x.
Proof. intros H f v g n w M Q A B. unfold calm_b in H. rewrite M, Q in H. destruct v; try contradiction; destruct w; try contradiction; discriminate. Qed.
Fixpoint cgo (x : RS) (h : list rvt) (ls : list rlabel) : option (RS * list rvt) :=
  match ls with
  | [] => Some (x, h)
  | l :: ls => match rstep x l with Some (x', es) => if calm_b x' then cgo x' (h ++ es) ls else None | None => None end
  end.
Lemma cgo_run ls : forall x0 x h x' h', rrun calm x0 h x -> cgo x h ls = Some (x', h') -> rrun calm x0 h' x'.
Proof.
  induction ls as [|l ls IH]; intros x0 x h x' h' R E; cbn in E; [injection E as <- <-; exact R|].
  destruct (rstep x l) as [(x1, es)|] eqn:S; [|discriminate]. destruct (calm_b x1) eqn:C; [|discriminate]. eapply IH; [|exact E]. econstructor; [exact R|exact S|]. now apply calm_b_ok.
Qed.
Example C85_calm_run : exists h x, rrun calm r_init h x /\ given h = [1; 2] /\ In (EResult 1) h /\ In (EFound 1) h /\ In (EMissing 1) h /\ In (EDone 1) h.
Proof.
  destruct (cgo r_init [] [LStart; LScopes 1 1; LReq; LReq; LReq; LResult 1; LMain; LReq; LReq; LMain; LMain; LMain; LMain; LVars 1 0; LPop 1; LMain; LMain; LMain; LVars 1 0]) as [(x, h)|] eqn:E; [|vm_compute in E; discriminate].
  pose proof (@cgo_run _ r_init r_init [] x h (@rrun_nil calm r_init (calm_b_ok r_init eq_refl)) E) as R. vm_compute in E. injection E as <- <-.
  eexists _, _. split; [exact R|]. cbn. tauto.
Qed.
