(** C61: breakpoints set while Ansible is loading files. *)
From Verif Require Import PyBase PyDict DbgTypes BpModel BpSpec BpProps TableModel TableProps.
From Coq Require Import ZifyBool ZifyNat ZifyN.
Set Implicit Arguments.
Local Open Scope Z_scope.
Lemma dset_dset {K V} {E : Eqb K} (d : dict K V) k v w : dset (dset d k v) k w = dset d k w.
Proof.
  induction d as [|[k0 v0] d IH]; cbn.
  - destruct (eqb_spec k k); congruence.
  - destruct (eqb_spec k0 k) as [->|NE]; cbn.
    + destruct (eqb_spec k k); congruence.
    + destruct (eqb_spec k0 k); [congruence|]. f_equal. exact IH.
Qed.
Lemma dset_same {K V} {E : Eqb K} (d : dict K V) k v : dget d k = Some v -> dset d k v = d.
Proof.
  induction d as [|[k0 v0] d IH]; cbn; [discriminate|].
  destruct (eqb_spec k0 k) as [->|NE]; intros H; [congruence|]. f_equal. auto.
Qed.
#[local] Arguments dget : simpl never.
#[local] Arguments dset : simpl never.
#[local] Arguments Z.add : simpl never.
#[local] Arguments set_tab : simpl never.

(* ------------------------------------------------------------------ specification *)
(** The calls a run began, in order. *)
Fixpoint calls (h : list (tlabel * list tev)) : list bop :=
  match h with
  | [] => []
  | (LReg p l t, _) :: r => BReg p l t :: calls r
  | (LSet j l, _) :: r => BSet (j_seq j) (j_src j) l (j_mod j) :: calls r
  | (LClear, _) :: r => BClear :: calls r
  | _ :: r => calls r
  end.
Definition a_quiet (x : TS) : Prop := x_a x = AIdle \/ x_a x = AFailed.
(** The threads take turns: neither begins a call while the other is inside one. *)
Definition turns (x : TS) (l : tlabel) : Prop :=
  match l with
  | LLook _ _ | LReg _ _ _ => x_b x = BIdle
  | LSet _ _ | LClear => a_quiet x
  | LA | LB => True
  end.
Inductive srun : TS -> list (tlabel * list tev) -> TS -> Prop :=
| srun_nil x : srun x [] x
| srun_step x h x1 l x2 es : srun x h x1 -> turns x1 l -> tstep x1 l = Some (x2, es) -> srun x (h ++ [(l, es)]) x2.
Definition quiet (x : TS) : Prop := a_quiet x /\ x_b x = BIdle.

(* ------------------------------------------------------------------ the sequential state *)
Definition pairs (x : TS) (ids : list N) : dict N LineBp :=
  flat_map (fun k => match dget (x_objs x) k with Some b => [(k, b)] | None => [] end) ids.
Definition abs (x : TS) : Dbg :=
  mkDbg [] (pairs x (tab x (x_cur x))) (x_ctr x) (x_src x) (x_maps x) 2 1 1 false false (map Some (x_out x)).

Definition info_of (x : TS) (j : job) (known : bool) : option (list (option Z)) := if known then dget (x_src x) (j_apath x j) else None.
Definition finish (j : job) (r : Dbg * res (list Breakpoint)) : Dbg :=
  match r with
  | (d, Err _) => queue_msg (OError CSetBreakpoints (j_seq j)) d
  | (d, Ok infos) => queue_msg (OBps (j_seq j) infos) d
  end.
Definition loop_of (x : TS) (j : job) (known : bool) l acc d := finish j (set_loop (j_src j) (j_spath j) (j_apath x j) (j_mod j) (info_of x j known) l acc d).
(** What is still to be done, done. *)
Definition denB (x : TS) : Dbg :=
  match x_b x with
  | BIdle => abs x
  | BRead j l => bstep (abs x) (BSet (j_seq j) (j_src j) l (j_mod j))
  | BBind j kn l => loop_of x j kn l [] (set_bps (filter (fun kb => negb (eqb (lb_srcpath (snd kb)) (j_spath j))) (d_bps (abs x))) (abs x))
  | BCalc j kn l acc => loop_of x j kn l acc (abs x)
  | BIns j kn id sb bp l acc => loop_of x j kn l (acc ++ [bp]) (set_bps (dset (d_bps (abs x)) id (mkLB id (j_src j) sb bp (j_apath x j) (j_spath j))) (abs x))
  | BSay j acc => queue_msg (OBps (j_seq j) acc) (abs x)
  | BErr j => queue_msg (OError CSetBreakpoints (j_seq j)) (abs x)
  end.
Definition fl_of (x : TS) (p : pystr) : list (option Z) := match dget (x_src x) p with Some fl => fl | None => [] end.
Definition refr (x : TS) (p : pystr) (before after : list N) : Dbg :=
  let '(bps', ev, _) := refresh p (fl_of x p) (pairs x after) in
  queue_all (map OBpEvent ev) (set_bps (pairs x before ++ bps') (abs x)).
Definition denA (x : TS) : Dbg :=
  match x_a x with
  | AIdle | AFailed | ALook _ _ _ _ _ => abs x
  | AReg1 p l t | AReg2 p l t | AReg3 p l t => fst (register_path_breakpoint p l t (abs x))
  | AReg4 p => refr x p [] (tab x (x_cur x))
  | ALoop p ob n i => refr x p (firstn i (tab x (x_cur x))) (skipn i (tab x (x_cur x)))
  end.
Definition den (x : TS) : Dbg := match x_b x with BIdle => denA x | _ => denB x end.

Lemma pairs_app x a b : pairs x (a ++ b) = pairs x a ++ pairs x b.
Proof. unfold pairs. apply flat_map_app. Qed.
Lemma pairs_ext x y l : (forall k, In k l -> dget (x_objs x) k = dget (x_objs y) k) -> pairs x l = pairs y l.
Proof. induction l as [|k l IH]; intros H; cbn; auto. rewrite H by (left; reflexivity). f_equal. apply IH. intros; apply H; now right. Qed.
Lemma pairs_keys x l k : In k (dkeys (pairs x l)) -> In k l.
Proof.
  induction l as [|a l IH]; cbn; [auto|]. unfold dkeys. rewrite map_app. intros H. apply in_app_or in H. destruct H as [H|H]; [|right; apply IH; exact H].
  destruct (dget (x_objs x) a); cbn in H; [|contradiction]. left. tauto.
Qed.
Lemma dget_same {K V} {E : Eqb K} (d : dict K V) k v : dget (dset d k v) k = Some v.
Proof. rewrite dget_dset. destruct (eqb_spec k k); congruence. Qed.

(** Registering after the first two actions of a registration were done already. *)
Lemma reg_again1 p l t d : fst (register_path_breakpoint p l t (set_src (match dget (d_src d) p with Some _ => d_src d | None => dset (d_src d) p [Some 0] end) d)) = fst (register_path_breakpoint p l t d).
Proof.
  unfold register_path_breakpoint. cbn [d_src set_src d_bps]. destruct (dget (d_src d) p) as [fl|] eqn:D; [rewrite D; reflexivity|]. rewrite dget_same.
  destruct (py_setitem _ _ _) as [fl2|]; unfold set_src; cbn [d_exc d_bps d_bpctr d_src d_maps d_thread d_frame d_var d_confdone d_term d_out]; rewrite !dset_dset; [|reflexivity].
  destruct (refresh _ _ _) as [[b e] r]. reflexivity.
Qed.
Lemma reg_again2 p l t d fl : dget (d_src d) p = Some fl ->
  fst (register_path_breakpoint p l t (set_src (dset (d_src d) p (fl ++ repeat None (Z.to_nat (1 + l - Z.of_nat (length fl))))) d)) = fst (register_path_breakpoint p l t d).
Proof.
  intros D. unfold register_path_breakpoint. cbn [d_src set_src d_bps]. rewrite dget_same, D.
  set (g := repeat None _). replace (repeat None (Z.to_nat (1 + l - Z.of_nat (length (fl ++ g))))) with (@nil (option Z)).
  2:{ unfold g. rewrite app_length, repeat_length. replace (Z.to_nat _) with 0%nat by lia. reflexivity. }
  rewrite app_nil_r. destruct (py_setitem _ _ _) as [fl2|]; unfold set_src; cbn [d_exc d_bps d_bpctr d_src d_maps d_thread d_frame d_var d_confdone d_term d_out]; rewrite !dset_dset; [|reflexivity].
  destruct (refresh _ _ _) as [[b e] r]. reflexivity.
Qed.

Lemma queue_all_app a b d : queue_all (a ++ b) d = queue_all b (queue_all a d).
Proof. unfold queue_all. apply fold_left_app. Qed.

Lemma pairs_filter x (f : LineBp -> bool) ids :
  pairs x (filter (fun k => match dget (x_objs x) k with Some b => f b | None => false end) ids) = filter (fun kb => f (snd kb)) (pairs x ids).
Proof.
  induction ids as [|k ids IH]; cbn; auto. rewrite filter_app. fold (pairs x ids). rewrite <- IH. destruct (dget (x_objs x) k) as [b|] eqn:D; cbn; [|reflexivity].
  destruct (f b); cbn; [rewrite D|]; reflexivity.
Qed.
Lemma set_loop_info src sp ap md l : forall i1 i2 acc d, (match i1 with Some (_ :: _) => i1 = i2 | _ => match i2 with Some (_ :: _) => False | _ => True end end) ->
  set_loop src sp ap md i1 l acc d = set_loop src sp ap md i2 l acc d.
Proof.
  induction l as [|sb l IH]; intros i1 i2 acc d H; cbn; auto. destruct md; [now apply IH|].
  destruct i1 as [[|a r]|]; [|subst i2|]; try (destruct i2 as [[|a2 r2]|]; try contradiction); try (apply IH; exact I); try reflexivity.
Qed.

Definition known_ok (x : TS) : Prop :=
  match x_b x with
  | BBind j true _ | BCalc j true _ _ | BIns j true _ _ _ _ _ => exists a r, dget (x_src x) (j_apath x j) = Some (a :: r)
  | _ => True
  end.
Lemma b_step_den x x' : XInv x -> known_ok x -> x_b x <> BIdle -> b_step x = Some x' -> denB x' = denB x.
Proof.
  intros I KO NB H. unfold known_ok in KO. unfold b_step in H. unfold denB at 2. destruct (x_b x) as [|j l|j kn l|j kn l acc|j kn id sb bp l acc|j acc|j] eqn:P; try congruence.
  - injection H as <-. unfold denB. cbn [x_b with_b]. cbn [bstep]. unfold set_breakpoints, loop_of, finish.
    change (j_spath j) with (py_or_empty (src_path (j_src j))). change (abs (with_b _ x)) with (abs x).
    change (j_apath (with_b _ x) j) with (to_actual (x_maps x) (j_spath j)). change (d_maps (abs x)) with (x_maps x). change (d_src (abs x)) with (x_src x).
    rewrite (@set_loop_info (j_src j) (py_or_empty (src_path (j_src j))) (to_actual (x_maps x) (py_or_empty (src_path (j_src j)))) (j_mod j) l (info_of (with_b (BBind j _ l) x) j _) (dget (x_src x) (to_actual (x_maps x) (py_or_empty (src_path (j_src j)))))).
    2:{ unfold info_of. cbn. fold (j_spath j). change (to_actual (x_maps x) (j_spath j)) with (j_apath x j). change (j_apath (with_b _ x) j) with (j_apath x j).
        destruct (dget (x_src x) (j_apath x j)) as [[|a r]|] eqn:D; auto. }
    fold (j_spath j). destruct (set_loop _ _ _ _ _ _ _ _) as [d2 [i|e]]; reflexivity.
  - injection H as <-. unfold denB. cbn [x_b with_b]. unfold loop_of. f_equal. unfold info_of. change (j_apath (with_b _ _) j) with (j_apath x j). f_equal.
    set (keep := filter _ (tab x (x_cur x))). set (x' := with_b _ _).
    assert (T : tab x' (x_cur x') = keep) by (unfold tab, x'; cbn; now rewrite nth_snoc, Nat.eqb_refl).
    assert (PE : pairs x' (tab x' (x_cur x')) = filter (fun kb => negb (eqb (lb_srcpath (snd kb)) (j_spath j))) (pairs x (tab x (x_cur x)))).
    2:{ unfold abs, set_bps. cbn [d_bps]. rewrite PE. reflexivity. }
    rewrite T. unfold keep. change (pairs x') with (pairs x). clear.
    generalize (tab x (x_cur x)). intros ids. exact (pairs_filter x (fun b => negb (eqb (lb_srcpath b) (j_spath j))) ids).
  - destruct l as [|sb l].
    + injection H as <-. unfold denB, loop_of. cbn [x_b with_b set_loop finish]. reflexivity.
    + cbv zeta in H. unfold loop_of. cbn [set_loop]. destruct (j_mod j) eqn:M.
      * injection H as <-. unfold denB. cbn [x_b with_b]. unfold loop_of. rewrite M. reflexivity.
      * unfold info_of. destruct kn.
        -- destruct KO as (a & r & D). rewrite D in *. change (d_bpctr (abs x)) with (x_ctr x).
              destruct (calculate (x_ctr x) (j_src j) (sb_line sb) (a :: r)) as [bp|e] eqn:C; injection H as <-; unfold denB; cbn [x_b with_b]; [|reflexivity].
              unfold loop_of. rewrite M. unfold info_of. change (j_apath (with_b _ _) j) with (j_apath x j). change (x_src (with_b _ _)) with (x_src x). rewrite D. reflexivity.
        -- injection H as <-. unfold denB. cbn [x_b with_b]. unfold loop_of. rewrite M. reflexivity.
  - injection H as <-. unfold denB. cbn [x_b with_b]. unfold loop_of. f_equal. change (j_apath (with_b _ _) j) with (j_apath x j). unfold info_of. change (j_apath (with_b _ _) j) with (j_apath x j). cbn [x_src with_b with_objs with_tabs]. f_equal.
    destruct (c_ins I P) as (L & N).
    assert (FR : ~ In id (tab x (x_cur x))) by (intros X; destruct (c_in I _ _ X); congruence).
    set (x' := with_b _ _).
    assert (T : tab x' (x_cur x') = tab x (x_cur x) ++ [id]) by (unfold tab at 1, x'; cbn -[tab]; rewrite nth_upd by apply (c_cur I); now rewrite Nat.eqb_refl).
    assert (PE : pairs x' (tab x' (x_cur x')) = dset (pairs x (tab x (x_cur x))) id (mkLB id (j_src j) sb bp (j_apath x j) (j_spath j))).
    2:{ unfold abs, set_bps. cbn [d_bps]. rewrite PE. reflexivity. }
    rewrite T, dset_fresh by (intros X; apply pairs_keys in X; auto). rewrite pairs_app. f_equal; [|cbn; rewrite dget_same; reflexivity].
    apply pairs_ext. intros k X. cbn. rewrite dget_dset. destruct (eqb_spec id k); [congruence|reflexivity].
  - injection H as <-. unfold denB. cbn [x_b with_b say with_out]. unfold abs, queue_msg, queue_opt. cbn. now rewrite map_app.
  - injection H as <-. unfold denB. cbn [x_b with_b say with_out]. unfold abs, queue_msg, queue_opt. cbn. now rewrite map_app.
Qed.

Definition loop_ok (x : TS) : Prop :=
  match x_a x with
  | ALoop p ob n i => ob = x_cur x /\ n = length (tab x ob)
  | ALook p line ob n i => ob = x_cur x /\ n = length (tab x ob)
  | AReg3 p line ty => exists fl, dget (x_src x) p = Some fl /\ 1 + line <= Z.of_nat (length fl)
  | _ => True
  end.

Lemma a_step_den x x' es : XInv x -> loop_ok x -> a_step x = Some (x', es) -> denA x' = denA x /\ loop_ok x'.
Proof.
  intros I LO H. unfold a_step in H. unfold denA at 2. unfold loop_ok in LO.
  destruct (x_a x) as [|p line ob n i|p line ty|p line ty|p line ty|p|p ob n i|] eqn:P; try discriminate.
  - destruct LO as (-> & ->). unfold dict_next in H. rewrite Nat.eqb_refl in H. destruct (nth_error _ i) as [k|]; [|injection H as <- <-; split; [reflexivity|exact Logic.I]].
    destruct (dget (x_objs x) k) as [b|]; [|discriminate]. destruct (bp_matches p line b); injection H as <- <-; (split; [reflexivity|]); cbn; auto.
  - injection H as <- <-. split; [|exact Logic.I]. unfold denA. cbn [x_a with_a]. rewrite <- (reg_again1 p line ty (abs x)). reflexivity.
  - destruct (dget (x_src x) p) as [fl|] eqn:D; [|discriminate]. injection H as <- <-. split.
    + unfold denA. cbn [x_a with_a]. rewrite <- (@reg_again2 p line ty (abs x) fl D). reflexivity.
    + unfold loop_ok. cbn [x_a with_a x_src with_src]. eexists. rewrite dget_same. split; [reflexivity|]. rewrite app_length, repeat_length. lia.
  - destruct LO as (fl & D & L). rewrite D in H. unfold register_path_breakpoint. change (d_src (abs x)) with (x_src x). rewrite D.
    replace (repeat None (Z.to_nat (1 + line - Z.of_nat (length fl)))) with (@nil (option Z)) by (replace (Z.to_nat _) with 0%nat by lia; reflexivity).
    rewrite app_nil_r. destruct (py_setitem fl line (Some ty)) as [fl2|]; injection H as <- <-; (split; [|exact Logic.I]).
    + unfold denA. cbn [x_a with_a]. unfold refr, fl_of. cbn [x_src with_a with_src]. rewrite dget_same.
      change (pairs (with_a _ _) (tab (with_a _ _) _)) with (pairs x (tab x (x_cur x))). change (d_bps (abs x)) with (pairs x (tab x (x_cur x))).
      destruct (refresh _ _ _) as [[b e] r]. reflexivity.
    + cbn [fst]. rewrite (dset_same _ _ D). reflexivity.
  - injection H as <- <-. split; [reflexivity|]. unfold loop_ok. cbn. auto.
  - destruct LO as (-> & ->). unfold dict_next in H. rewrite Nat.eqb_refl in H.
    set (ids := tab x (x_cur x)) in *.
    destruct (nth_error ids i) as [k|] eqn:NE.
    + destruct (dget (x_objs x) k) as [b|] eqn:D; [|discriminate]. destruct (dget (x_src x) p) as [fl|] eqn:DS; [|discriminate].
      assert (SK : pairs x (skipn i ids) = (k, b) :: pairs x (skipn (S i) ids)).
      { replace (skipn i ids) with ([k] ++ skipn (S i) ids); [rewrite pairs_app; cbn; rewrite D; reflexivity|].
        clear - NE. revert i NE. induction ids as [|a l IH]; intros [|i] H; cbn in *; try discriminate; [congruence|]. now apply IH. }
      assert (FK : firstn (S i) ids = firstn i ids ++ [k]) by now apply firstn_S_nth.
      assert (P1 : pairs x [k] = [(k, b)]) by (cbn; now rewrite D).
      unfold refr at 1. rewrite SK. unfold fl_of. rewrite DS. cbn [refresh].
      destruct (negb (eqb (lb_actual b) p)).
      { injection H as <- <-. split; [|unfold loop_ok; cbn; auto]. unfold denA. cbn [x_a with_a]. unfold refr, fl_of. cbn [x_src with_a]. rewrite DS.
        change (tab (with_a _ x) (x_cur (with_a _ x))) with ids. change (pairs (with_a _ x)) with (pairs x).
        destruct (refresh p fl (pairs x (skipn (S i) ids))) as [[b' e] r]. rewrite FK, pairs_app, P1, <- app_assoc. reflexivity. }
      destruct (calculate (lb_id b) (lb_source b) (sb_line (lb_sb b)) fl) as [bp|e0].
      2:{ injection H as <- <-. split; [|exact Logic.I]. unfold denA. cbn [x_a with_a map queue_all fold_left].
          rewrite <- SK, <- pairs_app, firstn_skipn. reflexivity. }
      destruct (same_loc (lb_bp b) bp).
      { injection H as <- <-. split; [|unfold loop_ok; cbn; auto]. unfold denA. cbn [x_a with_a]. unfold refr, fl_of. cbn [x_src with_a]. rewrite DS.
        change (tab (with_a _ x) (x_cur (with_a _ x))) with ids. change (pairs (with_a _ x)) with (pairs x).
        destruct (refresh p fl (pairs x (skipn (S i) ids))) as [[b' e] r]. rewrite FK, pairs_app, P1, <- app_assoc. reflexivity. }
      injection H as <- <-. split; [|unfold loop_ok; cbn; auto].
      set (nb := mkLB _ _ _ bp _ _). set (x' := with_a _ _).
      assert (ND : NoDup ids) by apply (c_nd I). rewrite (nth_split _ _ NE) in ND. apply NoDup_remove_2 in ND. rewrite in_app_iff in ND.
      assert (PF : pairs x' (firstn i ids) = pairs x (firstn i ids)).
      { apply pairs_ext. intros k0 X. cbn. rewrite dget_dset. destruct (eqb_spec k k0); [subst; tauto|reflexivity]. }
      assert (PS : pairs x' (skipn (S i) ids) = pairs x (skipn (S i) ids)).
      { apply pairs_ext. intros k0 X. cbn. rewrite dget_dset. destruct (eqb_spec k k0); [subst; tauto|reflexivity]. }
      assert (PK : pairs x' [k] = [(k, nb)]) by (cbn; now rewrite dget_same).
      unfold denA. change (x_a x') with (ALoop p (x_cur x) (length ids) (S i)). change (tab x' (x_cur x')) with ids. cbv iota beta.
      unfold refr, fl_of. change (x_src x') with (x_src x). rewrite DS, PS.
      destruct (refresh p fl (pairs x (skipn (S i) ids))) as [[b' e] r]. rewrite FK, pairs_app, PK, PF, <- app_assoc. cbn [app map].
      unfold queue_all. cbn [fold_left]. f_equal. unfold abs, queue_msg, queue_opt, set_bps. cbn. now rewrite map_app.
    + injection H as <- <-. split; [|exact Logic.I]. apply nth_error_None in NE. unfold denA. cbn [x_a with_a]. unfold refr.
      rewrite (firstn_all2 _ NE), (skipn_all2 _ NE). cbn [pairs flat_map refresh map queue_all fold_left]. rewrite app_nil_r. reflexivity.
Qed.

Record SI (x : TS) : Prop := {
  s_x : XInv x; s_turn : a_quiet x \/ x_b x = BIdle; s_known : known_ok x; s_loop : loop_ok x }.
Lemma quiet_denA x : a_quiet x -> denA x = abs x.
Proof. intros [A|A]; unfold denA; now rewrite A. Qed.
Lemma quiet_den x : quiet x -> den x = abs x.
Proof. intros (A & B). unfold den. rewrite B. now apply quiet_denA. Qed.

Definition calls1 (l : tlabel) : list bop := calls [(l, [])].
Lemma calls_app a b : calls (a ++ b) = calls a ++ calls b.
Proof. induction a as [|(l, e) a IH]; cbn; auto. destruct l; cbn; now rewrite ?IH. Qed.

Lemma den_b x : a_quiet x -> den x = denB x.
Proof. intros Q. unfold den, denB. destruct (x_b x); auto. now apply quiet_denA. Qed.
Lemma den_a x : x_b x = BIdle -> den x = denA x.
Proof. intros B. unfold den. now rewrite B. Qed.

Lemma step_si x l x' es : SI x -> turns x l -> tstep x l = Some (x', es) ->
  SI x' /\ den x' = fold_left bstep (calls1 l) (den x).
Proof.
  intros [X T K L] TU H. assert (X' : XInv x') by (eapply step_xinv; eauto). destruct l as [p n|p n ty| |j l| |]; cbn in H.
  - cbn in TU. destruct (x_a x) eqn:A; try discriminate. injection H as <- <-. split.
    + constructor; auto; unfold known_ok, loop_ok; cbn; rewrite ?TU; auto.
    + rewrite !den_a by exact TU. cbn. unfold denA. cbn. rewrite A. reflexivity.
  - cbn in TU. destruct (x_a x) eqn:A; try discriminate. injection H as <- <-. split.
    + constructor; auto; unfold known_ok, loop_ok; cbn; rewrite ?TU; auto.
    + rewrite !den_a by exact TU. cbn. unfold denA. cbn. rewrite A. reflexivity.
  - destruct T as [[A|A]|B]; [unfold a_step in H; rewrite A in H; discriminate|unfold a_step in H; rewrite A in H; discriminate|].
    destruct (@a_step_tabs x x' es H) as (_ & _ & EB & _). destruct (@a_step_den x x' es) as (D & L'); auto. split.
    + constructor; auto; [right; congruence|]. unfold known_ok. now rewrite EB, B.
    + rewrite !den_a by congruence. exact D.
  - cbn in TU. destruct (x_b x) eqn:B; try discriminate. injection H as <- <-. split.
    + constructor; auto. exact Logic.I.
    + rewrite den_b by exact TU. rewrite (@quiet_den x) by (split; auto). reflexivity.
  - destruct (b_step x) as [y|] eqn:BS; [|discriminate]. injection H as <- <-.
    destruct T as [Q|B]; [|unfold b_step in BS; rewrite B in BS; discriminate].
    assert (NB : x_b x <> BIdle) by (intros B; unfold b_step in BS; rewrite B in BS; discriminate).
    destruct (b_step_inv X BS) as (_ & _ & EA & _ & ES & EM).
    assert (Q' : a_quiet y) by (unfold a_quiet in *; now rewrite EA). split.
    + constructor; auto.
      * clear - K BS ES EM. unfold known_ok in *. assert (AP : forall j, j_apath y j = j_apath x j) by (intros j; unfold j_apath; now rewrite EM).
        unfold b_step in BS. destruct (x_b x) as [|j l|j kn l|j kn l acc|j kn id sb bp l acc|j acc|j] eqn:P; try discriminate.
        -- injection BS as <-. cbn in *. change (j_apath (with_b _ x) j) with (j_apath x j). destruct (dget (x_src x) (j_apath x j)) as [[|a r]|] eqn:D; auto. eauto.
        -- injection BS as <-. cbn in *. exact K.
        -- destruct l as [|sb l]; [injection BS as <-; exact Logic.I|]. cbv zeta in BS. destruct (j_mod j); [|destruct kn; [destruct (calculate _ _ _ _)|]]; injection BS as <-; cbn in *; auto.
        -- injection BS as <-. cbn in *. exact K.
        -- injection BS as <-. exact Logic.I.
        -- injection BS as <-. exact Logic.I.
      * unfold loop_ok. destruct Q' as [A|A]; rewrite A; exact Logic.I.
    + rewrite !den_b by auto. now apply b_step_den.
  - cbn in TU. destruct (x_b x) eqn:B; try discriminate. injection H as <- <-. split.
    + constructor; auto; [unfold known_ok; cbn; now rewrite B|]. unfold loop_ok. destruct TU as [A|A]; cbn; rewrite A; exact Logic.I.
    + rewrite !quiet_den by (split; auto). cbn [calls1 calls fold_left bstep]. unfold abs, clear_config, set_bps, set_maps. cbn -[tab]. f_equal.
      unfold tab. cbn. rewrite nth_snoc, Nat.eqb_refl. reflexivity.
Qed.

Lemma srun_den maps h x : srun (table_init maps) h x -> SI x /\ den x = brun (BConf maps :: calls h).
Proof.
  intros R. remember (table_init maps) as x0. induction R as [x0|x0 h x1 l x2 es R IH T S]; subst.
  - split; [|reflexivity]. constructor; try exact Logic.I; [apply xinv_init|now right].
  - destruct IH as (I & D); auto. destruct (@step_si x1 l x2 es) as (I' & D'); auto. split; auto.
    rewrite D', D, calls_app. unfold brun. cbn [fold_left]. rewrite fold_left_app. destruct l; reflexivity.
Qed.

Lemma current_pairs x b : In b (current x) <-> exists k, In (k, b) (d_bps (abs x)).
Proof.
  unfold current, bps_of. cbn [d_bps abs]. unfold pairs. rewrite in_flat_map. split.
  - intros (k & H & E). destruct (dget (x_objs x) k) as [b'|] eqn:D; [|contradiction]. destruct E as [->|[]]. exists k. apply in_flat_map. exists k. rewrite D. cbn. auto.
  - intros (k & H). apply in_flat_map in H. destruct H as (k' & H & E). destruct (dget (x_objs x) k') as [b'|] eqn:D; [|contradiction]. destruct E as [E|[]]. injection E as -> ->.
    exists k. rewrite D. cbn. auto.
Qed.

(** When the threads take turns, every breakpoint is where the registrations of its file
    put it and the client was last told so; all properties of sequences of calls hold. *)
Theorem C61_taking_turns_partial maps h x : srun (table_init maps) h x -> quiet x -> hist_wf (calls h) ->
  forall b, In b (current x) -> exists k,
    placed (regs_of (lb_actual b) (calls h)) (sb_line (lb_sb b)) (lb_bp b) /\ last_told (map Some (x_out x)) k = Some (lb_bp b).
Proof.
  intros R Q W b H. destruct (srun_den R) as (I & D). rewrite (quiet_den Q) in D. apply current_pairs in H. destruct H as (k & H).
  assert (W' : hist_wf (BConf maps :: calls h)) by (intros o [<-|O]; [exact Logic.I|now apply W]).
  destruct (C15_client_view_current W') as (_ & C). rewrite <- D in C. destruct (C _ _ H) as (C1 & C2). exists k. split; [exact C2|exact C1].
Qed.
Print Assumptions C61_taking_turns_partial.
Theorem C61_as_one_sequence maps h x : srun (table_init maps) h x -> quiet x ->
  let d := brun (BConf maps :: calls h) in
  current x = dvals (d_bps d) /\ map Some (x_out x) = d_out d /\ x_src x = d_src d /\ x_ctr x = d_bpctr d.
Proof.
  intros R Q d. destruct (srun_den R) as (I & D). rewrite (quiet_den Q) in D. unfold d. rewrite <- D. csplit; try reflexivity.
  cbn [d_bps abs]. unfold current, bps_of, pairs, dvals. induction (tab x (x_cur x)) as [|k l IH]; cbn; auto. rewrite map_app, IH. destruct (dget (x_objs x) k); reflexivity.
Qed.
Print Assumptions C61_as_one_sequence.

(** A task at line 3 is loaded while the client's request for it is being handled. *)
Definition meanwhile := [LSet demo_job [mkSB 3 None 0]; LB; LReg (s "/p.yml") 3 1; LA; LA; LA; LA; LA; LB; LB; LB; LB; LB].
(** In general it does not hold: afterwards both threads are done, the file is loaded, yet
    the breakpoint is still reported as unverified, and a lookup for a line far below
    finds it. *)
Theorem C61_overlap_refuted : exists h x b, trun (table_init []) h x /\ quiet x /\ hist_wf (calls h) /\ current x = [b] /\
  lb_actual b = s "/p.yml" /\ regs_of (s "/p.yml") (calls h) = [(3, 1)] /\ sb_line (lb_sb b) = 3 /\
  bp_verified (lb_bp b) = false /\ ~ placed (regs_of (lb_actual b) (calls h)) (sb_line (lb_sb b)) (lb_bp b) /\
  find (bp_matches (s "/p.yml") 500) (current x) = Some b.
Proof.
  destruct (tgo (table_init []) [] meanwhile) as [(x, h)|] eqn:E; [|vm_compute in E; discriminate].
  exists h, x. pose proof (tgo_run _ (trun_nil _) E) as R. vm_compute in E. injection E as E1 E2. rewrite <- E2, <- E1 in R. rewrite <- E1, <- E2. eexists.
  split; [exact R|]. split; [split; [left; reflexivity|reflexivity]|].
  split; [intros o O; repeat (destruct O as [<-|O]; [cbn; try (intros sb [<-|[]]; cbn); lia|]); contradiction|].
  split; [vm_compute; reflexivity|]. split; [vm_compute; reflexivity|]. split; [vm_compute; reflexivity|]. split; [reflexivity|]. split; [reflexivity|].
  split; [|vm_compute; reflexivity].
  intros P. unfold placed in P. match type of P with match ?v with _ => _ end => assert (V : v = [(3, 1)]) by (vm_compute; reflexivity); rewrite V in P end.
  destruct P as (a & l & ty & RG & B1 & B2 & B3). cbn in B2. discriminate.
Qed.
Print Assumptions C61_overlap_refuted.

(** The same calls taking turns. *)
Example C61_turns : exists h x b, srun (table_init []) h x /\ quiet x /\ current x = [b] /\ bp_verified (lb_bp b) = true /\ calls h <> [].
Proof.
  assert (G : forall ls x0 x h x' h', srun x0 h x -> Forall (fun l => match l with LLook _ _ | LReg _ _ _ => False | _ => True end) ls ->
    (forall p q, ls = p ++ q -> match q with (LSet _ _ | LClear) :: _ => False | _ => True end) -> tgo x h ls = Some (x', h') -> srun x0 h' x').
  { induction ls as [|l ls IH]; intros x0 x h x' h' R F N E; cbn in E; [injection E as <- <-; exact R|].
    destruct (tstep x l) as [(x1, es)|] eqn:S; [|discriminate]. inversion F as [|? ? F1 F2]; subst. eapply IH; [|exact F2| |exact E].
    - econstructor; eauto. pose proof (N [] (l :: ls) eq_refl) as N0. cbn in N0. destruct l; cbn; auto; contradiction.
    - intros p q EQ. apply (N (l :: p) q). now rewrite EQ. }
  assert (NB : forall (ls : list tlabel), Forall (fun l => l = LA \/ l = LB) ls -> Forall (fun l => match l with LLook _ _ | LReg _ _ _ => False | _ => True end) ls /\
    (forall p q, ls = p ++ q -> match q with (LSet _ _ | LClear) :: _ => False | _ => True end)).
  { intros ls F. split.
    - eapply Forall_impl; [|exact F]. intros a [->| ->]; exact Logic.I.
    - intros p q ->. apply Forall_app in F. destruct F as (_ & F). destruct q as [|l q]; auto. inversion F as [|? ? [->| ->] _]; exact Logic.I. }
  assert (S1 : srun (table_init []) [(LSet demo_job [mkSB 3 None 0], [])] (with_b (BRead demo_job [mkSB 3 None 0]) (table_init []))).
  { apply (@srun_step _ [] (table_init [])); [constructor|left; reflexivity|reflexivity]. }
  destruct (NB [LB; LB; LB; LB; LB; LB]) as (F1 & F2); [repeat (apply Forall_cons; [auto|]); apply Forall_nil|].
  match type of S1 with srun _ ?h0 ?x0 => destruct (tgo x0 h0 [LB; LB; LB; LB; LB; LB]) as [(x1, h1)|] eqn:E; [|vm_compute in E; discriminate] end.
  pose proof (G _ _ _ _ _ _ S1 F1 F2 E) as S2. vm_compute in E. injection E as E1 E2. rewrite <- E1, <- E2 in S2.
  match type of S2 with srun _ ?h0 ?x0 => destruct (tstep x0 (LReg (s "/p.yml") 3 1)) as [(x2, es)|] eqn:L; [|vm_compute in L; discriminate]; assert (S3 : srun (table_init []) (h0 ++ [(LReg (s "/p.yml") 3 1, es)]) x2) by (eapply srun_step; [exact S2|reflexivity|exact L]) end.
  vm_compute in L. injection L as L1 L2. rewrite <- L1, <- L2 in S3.
  destruct (NB [LA; LA; LA; LA; LA; LA]) as (F3 & F4); [repeat (apply Forall_cons; [auto|]); apply Forall_nil|].
  match type of S3 with srun _ ?h0 ?x0 => destruct (tgo x0 h0 [LA; LA; LA; LA; LA; LA]) as [(x4, h4)|] eqn:E; [|vm_compute in E; discriminate] end.
  pose proof (G _ _ _ _ _ _ S3 F3 F4 E) as S4. exists h4, x4. vm_compute in E. injection E as <- <-. eexists.
  split; [exact S4|]. split; [split; [left|]; reflexivity|]. split; [reflexivity|]. split; [reflexivity|discriminate].
Qed.
