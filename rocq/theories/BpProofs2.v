(** Invariant of breakpoint histories. *)
From Verif Require Import PyBase PyDict DbgTypes BpModel BpSpec BpProofs.
From Coq Require Import ZifyBool ZifyNat ZifyN.
Set Implicit Arguments.
Local Open Scope Z_scope.

Fixpoint nseq (a : N) (n : nat) : list N :=
  match n with O => [] | S m => a :: nseq (a + 1)%N m end.
Lemma nseq_length a n : length (nseq a n) = n.
Proof. revert a; induction n; intros; cbn; auto. Qed.
Lemma In_nseq a n x : In x (nseq a n) <-> (a <= x < a + N.of_nat n)%N.
Proof. revert a; induction n; intros a; cbn [nseq In]; [lia|]. rewrite IHn. lia. Qed.
Lemma NoDup_nseq a n : NoDup (nseq a n).
Proof. revert a; induction n; intros a; cbn; constructor; auto. rewrite In_nseq. lia. Qed.

Definition info_rep (info : option (list (option Z))) (h : list (Z * Z)) : Prop :=
  match info with None => h = [] | Some fl => h <> [] /\ rep fl h end.

Lemma placed_cons h q b : h <> [] -> (placed h q b <-> located h q b).
Proof. destruct h; [congruence|tauto]. Qed.

(** What the loop of setBreakpoints produces for one requested breakpoint. *)
Definition entry_of (src : Source) (ap sp : pystr) (sb : SourceBreakpoint) (b : Breakpoint) : N * LineBp :=
  (bp_id b, mkLB (bp_id b) src sb b ap sp).

Lemma set_loop_spec src sp ap md info h l : info_rep info h -> (forall sb, In sb l -> 0 <= sb_line sb) ->
  forall acc d, (forall k, In k (dkeys (d_bps d)) -> (k < d_bpctr d)%N) ->
  exists infos,
    set_loop src sp ap md info l acc d =
      (set_bpctr (d_bpctr d + N.of_nat (length l))%N
         (set_bps (d_bps d ++ (if md then [] else map (fun p => entry_of src ap sp (fst p) (snd p)) (combine l infos))) d),
       Ok (acc ++ infos))
    /\ length infos = length l
    /\ map bp_id infos = nseq (d_bpctr d) (length l)
    /\ (forall b, In b infos -> bp_source b = src)
    /\ (md = true -> forall b, In b infos -> bp_verified b = false /\ bp_line b = None /\ bp_end b = None)
    /\ (md = false -> Forall2 (fun sb b => placed h (sb_line sb) b) l infos).
Proof.
  intros IR. induction l as [|sb l IH]; intros Hl acc d Hk.
  - exists []. cbn. rewrite app_nil_r.
    split; [|repeat split; try constructor; intros; contradiction].
    destruct md; rewrite app_nil_r, N.add_0_r; destruct d; reflexivity.
  - assert (Hl' : forall x, In x l -> 0 <= sb_line x) by (intros; apply Hl; now right).
    specialize (Hl sb (or_introl eq_refl)).
    cbn [set_loop]. destruct md.
    + edestruct (IH Hl') as (infos & E & L & I & S1 & U & _); [|rewrite E].
      { cbn. intros k K. apply Hk in K. lia. }
      exists (mkBP (d_bpctr d) false (Some (s "Cannot set breakpoint on a modified source.")) src None None :: infos).
      split; [|split; [cbn; lia|split; [|split; [|split]]]].
      * rewrite <- app_assoc. cbn [app]. apply f_equal2; [|reflexivity].
        unfold set_bpctr, set_bps; cbn [d_bpctr d_bps d_exc d_src d_maps d_thread d_frame d_var d_confdone d_term d_out length]. f_equal. lia.
      * cbn. f_equal. exact I.
      * intros b [<-|Hb]; auto.
      * intros _ b [<-|Hb]; auto.
      * discriminate.
    + set (id := d_bpctr d).
      assert (C : exists b, match info with
                 | None | Some [] => Ok (mkBP id false (Some (s "File has not been loaded by Ansible, cannot detect breakpoints yet.")) src (Some (sb_line sb)) None)
                 | Some fl => calculate id src (sb_line sb) fl end = Ok b
                 /\ placed h (sb_line sb) b /\ bp_id b = id /\ bp_source b = src).
      { destruct info as [fl|]; cbn in IR.
        - destruct IR as (NE & R). pose proof (rep_pos R) as P.
          destruct fl as [|x fl]; [unfold lenZ in P; cbn in P; lia|].
          destruct (calculate_ok id src R Hl) as (b & E & Lc & A & B).
          exists b. rewrite placed_cons by auto. auto.
        - subst h. eexists; split; [reflexivity|]. cbn. unfold pending. cbn. auto. }
      destruct C as (b & E & PL & ID & SR). rewrite E.
      edestruct (IH Hl' (acc ++ [b])) as (infos & E2 & L & I & S1 & _ & F); [|rewrite E2].
      { cbn. intros k K. apply In_dkeys_dset in K. destruct K as [->|K]; [lia|]. apply Hk in K. subst id. lia. }
      exists (b :: infos). split; [|split; [cbn; lia|split; [|split; [|split]]]].
      * rewrite <- app_assoc. f_equal. cbn [d_bpctr set_bps set_bpctr d_bps]. rewrite dset_fresh.
        2:{ intros K. apply Hk in K. subst id. lia. }
        unfold set_bpctr, set_bps; cbn. rewrite <- app_assoc. cbn. unfold entry_of at 2. cbn [fst snd].
        rewrite ID. f_equal. lia.
      * cbn. rewrite I. cbn. now rewrite ID.
      * intros b' [<-|Hb]; auto.
      * discriminate.
      * intros _. constructor; auto.
Qed.

Lemma regs_of_snoc p ops o :
  regs_of p (ops ++ [o]) = regs_of p ops ++ match o with
     | BReg p' l t => if list_eq_dec N.eq_dec p' p then [(l, t)] else []
     | _ => [] end.
Proof.
  induction ops as [|x ops IH]; cbn [app regs_of].
  - destruct o; reflexivity.
  - destruct x; auto. destruct (list_eq_dec N.eq_dec path p); cbn; now rewrite IH.
Qed.

Lemma last_told_app out1 out2 id :
  last_told (out1 ++ out2) id = match last_told out2 id with Some b => Some b | None => last_told out1 id end.
Proof.
  unfold last_told. rewrite flat_map_app, rev_app_distr.
  induction (rev (flat_map told out2)) as [|x l IH]; cbn; auto. destruct (N.eqb (bp_id x) id); auto.
Qed.
Lemma last_told_none out id : ~ In id (map bp_id (flat_map told out)) -> last_told out id = None.
Proof.
  intros H. unfold last_told. destruct (find _ _) as [b|] eqn:E; auto. exfalso.
  apply find_some in E. destruct E as (I & E). apply in_rev in I. apply N.eqb_eq in E. subst.
  apply H. now apply in_map.
Qed.
Lemma last_told_uniq out b : NoDup (map bp_id (flat_map told out)) -> In b (flat_map told out) ->
  last_told out (bp_id b) = Some b.
Proof.
  intros ND HI. unfold last_told. destruct (find _ _) as [b'|] eqn:E.
  - apply find_some in E. destruct E as (I & E). apply in_rev in I. apply N.eqb_eq in E.
    f_equal. revert ND I HI E. generalize (flat_map told out) as l.
    induction l as [|x l IH]; cbn; intros ND I HI E; [contradiction|].
    inversion ND as [|? ? N1 N2]; subst.
    destruct I as [->|I], HI as [->|HI]; auto.
    + exfalso. apply N1. rewrite E. now apply in_map.
    + exfalso. apply N1. rewrite <- E. now apply in_map.
  - exfalso. apply in_rev in HI. apply (find_none _ _ E) in HI. rewrite N.eqb_refl in HI. discriminate.
Qed.

Record binv (d : Dbg) (ops : list bop) : Prop := {
  bi_nodup : NoDup (dkeys (d_bps d));
  bi_src : forall p, info_rep (dget (d_src d) p) (regs_of p ops);
  bi_told : forall b, In b (flat_map told (d_out d)) -> (bp_id b < d_bpctr d)%N;
  bi_bp : forall k b, In (k, b) (d_bps d) ->
      lb_id b = k /\ bp_id (lb_bp b) = k /\ (k < d_bpctr d)%N /\
      bp_source (lb_bp b) = lb_source b /\
      0 <= sb_line (lb_sb b) /\
      last_told (d_out d) k = Some (lb_bp b) /\
      placed (regs_of (lb_actual b) ops) (sb_line (lb_sb b)) (lb_bp b) }.

Lemma binv_keys d ops k : binv d ops -> In k (dkeys (d_bps d)) -> (k < d_bpctr d)%N.
Proof.
  intros I K. unfold dkeys in K. apply in_map_iff in K. destruct K as ((k', b) & <- & HI).
  apply (bi_bp I) in HI. cbn. tauto.
Qed.

Lemma binv_init : binv dbg_init [].
Proof.
  split; cbn.
  - constructor.
  - intros p. reflexivity.
  - contradiction.
  - contradiction.
Qed.

Lemma flat_told_queue d m : flat_map told (d_out (queue_opt m d)) = flat_map told (d_out d) ++ told m.
Proof. cbn. rewrite flat_map_app. cbn. now rewrite app_nil_r. Qed.

(** Transfer of the invariant when nothing about breakpoints changes. *)
Lemma binv_frame d d' ops o :
  binv d ops ->
  d_bps d' = d_bps d -> d_bpctr d' = d_bpctr d -> d_src d' = d_src d ->
  (exists l, d_out d' = d_out d ++ l /\ flat_map told l = []) ->
  (forall p, regs_of p (ops ++ [o]) = regs_of p ops) ->
  binv d' (ops ++ [o]).
Proof.
  intros I E1 E2 E3 (l & E4 & E5) R. destruct I as [I1 I2 I3 I4]. split.
  - now rewrite E1.
  - intros p. rewrite E3, R. apply I2.
  - intros b. rewrite E4, E2, flat_map_app, E5, app_nil_r. apply I3.
  - intros k b. rewrite E1, E2, E4. intros HI. rewrite R.
    destruct (I4 _ _ HI) as (A1 & A2 & A3 & A4 & A5 & A6 & A7). repeat split; auto.
    rewrite last_told_app. rewrite last_told_none by (rewrite E5; cbn; tauto). exact A6.
Qed.

Lemma dvals_In {K V} (d : dict K V) v : In v (dvals d) <-> exists k, In (k, v) d.
Proof.
  unfold dvals. rewrite in_map_iff. split.
  - intros ((k, v') & <- & H). eauto.
  - intros (k & H). exists (k, v). auto.
Qed.

Lemma refresh_spec path fl h l bps : rep fl h -> h <> [] ->
  (forall k b, In (k, b) bps -> lb_actual b = path -> 0 <= sb_line (lb_sb b)) -> l = bps ->
  exists bps' ev, refresh path fl bps = (bps', ev, Ok tt) /\
    Forall2 (fun kb kb' =>
       fst kb' = fst kb /\ lb_id (snd kb') = lb_id (snd kb) /\ lb_source (snd kb') = lb_source (snd kb) /\
       lb_sb (snd kb') = lb_sb (snd kb) /\ lb_actual (snd kb') = lb_actual (snd kb) /\
       lb_srcpath (snd kb') = lb_srcpath (snd kb) /\
       ((snd kb' = snd kb /\ (lb_actual (snd kb) <> path \/
             (exists b, located h (sb_line (lb_sb (snd kb))) b /\ bp_verified (lb_bp (snd kb)) = bp_verified b
                  /\ bp_line (lb_bp (snd kb)) = bp_line b /\ bp_end (lb_bp (snd kb)) = bp_end b)))
        \/ (lb_actual (snd kb) = path /\ In (lb_bp (snd kb')) ev /\ located h (sb_line (lb_sb (snd kb))) (lb_bp (snd kb')) /\
            bp_id (lb_bp (snd kb')) = lb_id (snd kb) /\ bp_source (lb_bp (snd kb')) = lb_source (snd kb)))) bps bps' /\
    (forall b, In b ev -> exists kb, In kb bps /\ bp_id b = lb_id (snd kb) /\ lb_actual (snd kb) = path /\
         exists kb', In kb' bps' /\ fst kb' = fst kb /\ lb_bp (snd kb') = b) /\
    (NoDup (map (fun kb => lb_id (snd kb)) bps) -> NoDup (map bp_id ev)).
Proof.
  intros R NE H _. induction bps as [|(k, b) bps IH].
  { exists [], []. cbn. repeat split; auto; try contradiction; constructor. }
  destruct IH as (bps' & ev & E & F & G & ND). { intros k' b' HI. apply H with k'; now right. }
  cbn [refresh]. rewrite E.
  assert (Hsub : forall b0, In b0 ev -> exists kb, In kb bps /\ bp_id b0 = lb_id (snd kb)).
  { intros b0 Hb0. destruct (G _ Hb0) as (kb & K1 & K2 & _). eauto. }
  assert (G' : forall x ev' b0, In b0 ev -> incl ev ev' -> exists kb, In kb ((k, b) :: bps) /\ bp_id b0 = lb_id (snd kb) /\ lb_actual (snd kb) = path /\
         exists kb', In kb' (x :: bps') /\ fst kb' = fst kb /\ lb_bp (snd kb') = b0).
  { intros x ev' b0 Hb0 _. destruct (G _ Hb0) as (kb & K1 & K2 & K3 & kb' & K4 & K5).
    exists kb. split; [now right|]. split; auto. split; auto. exists kb'. split; [now right|auto]. }
  assert (F' : forall ev', incl ev ev' -> Forall2 (fun kb kb' =>
       fst kb' = fst kb /\ lb_id (snd kb') = lb_id (snd kb) /\ lb_source (snd kb') = lb_source (snd kb) /\
       lb_sb (snd kb') = lb_sb (snd kb) /\ lb_actual (snd kb') = lb_actual (snd kb) /\
       lb_srcpath (snd kb') = lb_srcpath (snd kb) /\
       ((snd kb' = snd kb /\ (lb_actual (snd kb) <> path \/
             (exists b, located h (sb_line (lb_sb (snd kb))) b /\ bp_verified (lb_bp (snd kb)) = bp_verified b
                  /\ bp_line (lb_bp (snd kb)) = bp_line b /\ bp_end (lb_bp (snd kb)) = bp_end b)))
        \/ (lb_actual (snd kb) = path /\ In (lb_bp (snd kb')) ev' /\ located h (sb_line (lb_sb (snd kb))) (lb_bp (snd kb')) /\
            bp_id (lb_bp (snd kb')) = lb_id (snd kb) /\ bp_source (lb_bp (snd kb')) = lb_source (snd kb)))) bps bps').
  { intros ev' Hi. revert F. clear -Hi. induction 1 as [|x y l l' Hxy F IH]; constructor; auto.
    destruct Hxy as (A1 & A2 & A3 & A4 & A5 & A6 & [A7|(A7 & A8 & A9)]); do 6 (split; [assumption|]).
    - left; exact A7.
    - right. split; [exact A7|]. split; [apply Hi; exact A8|exact A9]. }
  destruct (eqb_spec (lb_actual b) path) as [EP|NP]; cbn [negb].
  - destruct (@calculate_ok fl h (lb_id b) (lb_source b) (sb_line (lb_sb b)) R) as (bp & EC & LC & IDC & SC).
    { apply (H k); [now left|auto]. }
    rewrite EC. destruct (same_loc (lb_bp b) bp) eqn:SL.
    + exists ((k, b) :: bps'), ev. split; [reflexivity|]. split; [|split].
      * constructor; [|apply F'; intros z; auto]. cbn. repeat split; auto. left. split; auto. right.
        exists bp. unfold same_loc in SL. rewrite !andb_true_iff in SL. destruct SL as ((V & L1) & L2).
        apply Bool.eqb_prop in V. apply eqb_eq in L1. apply eqb_eq in L2. auto.
      * intros b0 Hb0. apply (G' _ ev); auto. intros z; auto.
      * cbn. intros N. inversion N; auto.
    + eexists (_ :: bps'), (bp :: ev). split; [reflexivity|]. split; [|split].
      * constructor; [|apply F'; intros z; now right]. cbn. repeat split; auto. right. repeat split; auto.
      * intros b0 [<-|Hb0].
        -- exists (k, b). split; [now left|]. cbn. split; auto. split; auto. eexists. split; [left; reflexivity|]. auto.
        -- apply (G' _ ev); auto. intros z; auto.
      * cbn. intros N. inversion N as [|? ? N1 N2]; subst. constructor; auto.
        rewrite IDC. intros K. apply N1. apply in_map_iff in K. destruct K as (b0 & K1 & K2).
        destruct (Hsub _ K2) as (kb & K3 & K4). apply in_map_iff. exists kb. split; [congruence|auto].
  - exists ((k, b) :: bps'), ev. split; [reflexivity|]. split; [|split].
    + constructor; [|apply F'; intros z; auto]. cbn. repeat split; auto. 
    + intros b0 Hb0. apply (G' _ ev); auto. intros z; auto.
    + cbn. intros N. inversion N; auto.
Qed.

Lemma queue_all_out l d : d_out (queue_all l d) = d_out d ++ map Some l.
Proof.
  unfold queue_all. revert d; induction l as [|x l IH]; intros d; cbn [fold_left map]; [now rewrite app_nil_r|].
  rewrite IH. cbn. now rewrite <- app_assoc.
Qed.
Lemma queue_all_same l d :
  d_bps (queue_all l d) = d_bps d /\ d_bpctr (queue_all l d) = d_bpctr d /\ d_src (queue_all l d) = d_src d
  /\ d_maps (queue_all l d) = d_maps d /\ d_exc (queue_all l d) = d_exc d
  /\ d_thread (queue_all l d) = d_thread d /\ d_frame (queue_all l d) = d_frame d /\ d_var (queue_all l d) = d_var d
  /\ d_confdone (queue_all l d) = d_confdone d /\ d_term (queue_all l d) = d_term d.
Proof.
  unfold queue_all. revert d; induction l as [|x l IH]; intros d; cbn [fold_left]; [repeat split|].
  destruct (IH (queue_msg x d)) as (A1 & A2 & A3 & A4 & A5 & A6 & A7 & A8 & A9 & A10).
  rewrite A1, A2, A3, A4, A5, A6, A7, A8, A9, A10. repeat split.
Qed.
Lemma told_events ev : flat_map told (map Some (map OBpEvent ev)) = ev.
Proof. induction ev as [|x l IH]; cbn; auto. now rewrite IH. Qed.
