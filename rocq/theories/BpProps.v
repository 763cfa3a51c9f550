(** Properties C12-C19 and C21 (breakpoints, exception filters, path mappings, ids). *)
From Verif Require Import PyBase PyDict DbgTypes BpModel BpSpec BpProofs BpProofs2 BpProofs3.
From Coq Require Import ZifyBool ZifyNat ZifyN.
Set Implicit Arguments.
Local Open Scope Z_scope.

(** A history used in the non-vacuity examples: a client sets breakpoints on two
    sources, Ansible loads one of them, and the client changes it afterwards. *)
Definition ex_src (p : String.string) : Source := mkSource (Some (s p)) 0.
Definition ex_sb (l : Z) : SourceBreakpoint := mkSB l None 0.
Definition ex_hist : list bop :=
  [ BConf [mkMap (s "/local") (s "/remote")];
    BSet 1 (ex_src "/local/a.yml") [ex_sb 2; ex_sb 7] false;
    BSet 2 (ex_src "/x/b.yml") [ex_sb 9] false;
    BReg (s "/remote/a.yml") 1 1; BReg (s "/remote/a.yml") 5 0; BReg (s "/remote/a.yml") 6 1;
    BExc 3 [s "on_error"];
    BSet 4 (ex_src "/local/a.yml") [ex_sb 100; ex_sb 5; ex_sb 0] false ].
Example ex_hist_wf : hist_wf ex_hist.
Proof.
  intros o H. unfold ex_hist in H. cbn in H.
  repeat match goal with H : _ \/ _ |- _ => destruct H as [<-|H] end; cbn; try lia; try contradiction; auto.
  all: intros sb Hs; repeat match goal with H : _ \/ _ |- _ => destruct H as [<-|H] end; cbn; try lia; contradiction.
Qed.

Lemma slice_from_app {A} (a b : list A) : slice_from (a ++ b) (Z.of_nat (length a)) = b.
Proof.
  unfold slice_from, slice_idx. rewrite app_length.
  destruct (Z.of_nat (length a) <? 0) eqn:E; [lia|].
  replace (Z.to_nat _) with (length a) by lia.
  rewrite skipn_app, skipn_all, Nat.sub_diag. reflexivity.
Qed.
Lemma to_actual_spec maps p :
  (exists m r, first_match m_local maps p m /\ p = m_local m ++ r /\ to_actual maps p = m_remote m ++ r)
  \/ ((forall m, In m maps -> ~ exists r, p = m_local m ++ r) /\ to_actual maps p = p).
Proof.
  induction maps as [|m maps IH]; cbn [to_actual]; [right; split; auto|].
  destruct (startswith p (m_local m)) eqn:E.
  - apply startswith_spec in E. destruct E as (r & ->). left. exists m, r. split; [|split; auto].
    + exists [], maps. cbn. split; [auto|]. split; [eauto|contradiction].
    + now rewrite slice_from_app.
  - assert (NP : ~ exists r, p = m_local m ++ r) by (rewrite <- startswith_spec; congruence).
    destruct IH as [(m' & r & (bf & af & -> & X & Y) & Z)|(X & Y)].
    + left. exists m', r. split; [|exact Z]. exists (m :: bf), af. split; [auto|]. split; [auto|].
      intros m0 [<-|H]; auto.
    + right. split; auto. intros m0 [<-|H]; auto.
Qed.
Lemma first_match_fun root maps p m m' : first_match root maps p m -> first_match root maps p m' -> m = m'.
Proof.
  intros (b & a & -> & X & Y) (b' & a' & E & X' & Y').
  revert b' E Y'. induction b as [|x b IH]; intros [|y b'] E Y'; cbn in E.
  - now injection E.
  - injection E as <- ->. exfalso. apply (Y' m); [now left|auto].
  - injection E as -> <-. exfalso. apply (Y m'); [now left|auto].
  - injection E as <- E. apply (IH (fun m0 H => Y m0 (or_intror H)) b' E). intros m0 H. apply Y'. now right.
Qed.
Lemma maps_to_actual maps p q : maps_to maps p q <-> q = to_actual maps p.
Proof.
  split.
  - intros H. destruct (to_actual_spec maps p) as [(m & r & F & E & T)|(N & T)]; destruct H as [(m' & r' & F' & E' & T')|(N' & T')].
    + pose proof (first_match_fun F F'). subst m'. rewrite E in E'. apply app_inv_head in E'. congruence.
    + exfalso. destruct F as (b & a & X & _). apply (N' m); [rewrite X; apply in_or_app; right; now left|eauto].
    + exfalso. destruct F' as (b & a & X & _). apply (N m'); [rewrite X; apply in_or_app; right; now left|eauto].
    + congruence.
  - intros ->. apply to_actual_spec.
Qed.

(* ---------------------------------------------------------------- C12 *)
Lemma c12 ops seq src l md : hist_wf (ops ++ [BSet seq src l md]) ->
  let d := brun ops in let d' := brun (ops ++ [BSet seq src l md]) in
  exists infos,
    d_out d' = d_out d ++ [Some (OBps seq infos)] /\
    length infos = length l /\
    (forall b, In b infos -> bp_source b = src) /\
    NoDup (map bp_id infos) /\
    (forall b m b0, In b infos -> In m (d_out d) -> In b0 (told m) -> bp_id b <> bp_id b0) /\
    (md = false -> Forall2 (fun sb b => placed (regs_of (to_actual (d_maps d) (py_or_empty (src_path src))) ops) (sb_line sb) b) l infos) /\
    (md = true -> forall b, In b infos -> bp_verified b = false).
Proof.
  intros W d d'. subst d d'. rewrite brun_snoc.
  assert (I : binv (brun ops) ops) by (apply binv_run; intros x Hx; apply W; apply in_or_app; now left).
  assert (Wl : forall sb, In sb l -> 0 <= sb_line sb).
  { apply (W (BSet seq src l md)). apply in_or_app; right; now left. }
  destruct (@set_ok _ _ seq src l md I Wl) as (d' & infos & E & O & L & ID & _ & SR & UM & PL & _).
  cbn [bstep]. rewrite E. exists infos. split; [exact O|]. split; [exact L|]. split; [exact SR|].
  split; [rewrite ID; apply NoDup_nseq|]. split.
  - intros b m b0 Hb Hm Hb0 EQ.
    assert (H1 : In b0 (flat_map told (d_out (brun ops)))) by (apply in_flat_map; eauto).
    apply (bi_told I) in H1. apply (in_map bp_id) in Hb. rewrite ID in Hb. apply In_nseq in Hb. lia.
  - split; [exact PL|]. intros M b Hb. apply (UM M b Hb).
Qed.

(** The response to setBreakpoints has one entry per requested breakpoint, in
    request order (entry i is placed for request i), with the same source and ids
    that no earlier message to the client mentioned. *)
Theorem C12_setbreakpoints_response : forall ops seq src l md,
  hist_wf (ops ++ [BSet seq src l md]) ->
  let d := brun ops in let d' := brun (ops ++ [BSet seq src l md]) in
  exists infos,
    d_out d' = d_out d ++ [Some (OBps seq infos)] /\
    length infos = length l /\
    (forall b, In b infos -> bp_source b = src) /\
    NoDup (map bp_id infos) /\
    (forall b m b0, In b infos -> In m (d_out d) -> In b0 (told m) -> bp_id b <> bp_id b0) /\
    (exists path, maps_to (d_maps d) (source_path src) path /\
       (md = false -> Forall2 (fun sb b => placed (regs_of path ops) (sb_line sb) b) l infos)) /\
    (md = true -> forall b, In b infos -> bp_verified b = false).
Proof.
  intros ops seq src l md W d d'. destruct (@c12 _ _ _ _ _ W) as (infos & A & B & C & D & E & F & G). exists infos.
  do 5 (split; auto). split; auto. eexists. split; [now apply maps_to_actual|exact F].
Qed.
Print Assumptions C12_setbreakpoints_response.

(* ---------------------------------------------------------------- C13 *)
Definition of_source (sp : pystr) (kb : N * LineBp) : bool := eqb (lb_srcpath (snd kb)) sp.

Lemma filter_all {A} (f : A -> bool) l : (forall x, In x l -> f x = true) -> filter f l = l.
Proof. induction l as [|x l IH]; cbn; intros H; auto. rewrite (H x) by auto. f_equal; auto. Qed.
Lemma filter_nothing {A} (f : A -> bool) l : (forall x, In x l -> f x = false) -> filter f l = [].
Proof. induction l as [|x l IH]; cbn; intros H; auto. rewrite (H x) by auto. auto. Qed.

Lemma c13 ops seq src l md : hist_wf (ops ++ [BSet seq src l md]) ->
  let d := brun ops in let d' := brun (ops ++ [BSet seq src l md]) in
  let sp := py_or_empty (src_path src) in
  filter (fun kb => negb (of_source sp kb)) (d_bps d') = filter (fun kb => negb (of_source sp kb)) (d_bps d) /\
  map (fun kb => lb_sb (snd kb)) (filter (of_source sp) (d_bps d')) = (if md then [] else l) /\
  (forall kb, In kb (filter (of_source sp) (d_bps d')) -> lb_actual (snd kb) = to_actual (d_maps d) sp) /\
  (exists infos, d_out d' = d_out d ++ [Some (OBps seq infos)] /\
     (md = false -> map (fun kb => lb_bp (snd kb)) (filter (of_source sp) (d_bps d')) = infos)).
Proof.
  intros W d d' sp. subst d d'. rewrite brun_snoc.
  assert (I : binv (brun ops) ops) by (apply binv_run; intros x Hx; apply W; apply in_or_app; now left).
  assert (Wl : forall sb, In sb l -> 0 <= sb_line sb).
  { apply (W (BSet seq src l md)). apply in_or_app; right; now left. }
  destruct (@set_ok _ _ seq src l md I Wl) as (d' & infos & E & O & L & _ & _ & _ & _ & _ & B & _).
  cbn [bstep]. rewrite E. fold sp in B. rewrite B, !filter_app.
  set (new := if md then [] else _).
  assert (NW : forall kb, In kb new -> of_source sp kb = true /\ lb_actual (snd kb) = to_actual (d_maps (brun ops)) sp).
  { intros kb. subst new. destruct md; [contradiction|]. intros H. apply in_map_iff in H.
    destruct H as (p & <- & _). cbn [entry_of snd lb_srcpath lb_actual]. split; [apply (eqb_refl sp)|reflexivity]. }
  assert (F1 : filter (of_source sp) (filter (fun kb => negb (of_source sp kb)) (d_bps (brun ops))) = []).
  { apply filter_nothing. intros x Hx. apply filter_In in Hx. destruct Hx as (_ & Hx). now apply negb_true_iff in Hx. }
  change (fun kb : N * LineBp => negb (eqb (lb_srcpath (snd kb)) sp)) with (fun kb : N * LineBp => negb (of_source sp kb)).
  assert (F2 : filter (of_source sp) new = new) by (apply filter_all; intros x Hx; now apply NW).
  split; [|split; [|split]].
  - rewrite (filter_all _ (filter _ _)) by (intros x Hx; apply filter_In in Hx; tauto).
    rewrite (filter_nothing _ new), app_nil_r; auto. intros x Hx. apply NW in Hx. now rewrite (proj1 Hx).
  - rewrite F1, F2. cbn [app]. subst new. destruct md; [reflexivity|].
    rewrite map_map. cbn [entry_of snd lb_sb]. revert L. clear. revert infos.
    induction l as [|x l IH]; intros [|y infos] L; cbn in *; try discriminate; auto. f_equal. apply IH. lia.
  - rewrite F1, F2. cbn [app]. intros kb H. now apply NW.
  - exists infos. split; [exact O|]. intros ->. rewrite F1, F2. cbn [app]. subst new.
    rewrite map_map. cbn [entry_of snd lb_bp]. revert L. clear. revert infos.
    induction l as [|x l IH]; intros [|y infos] L; cbn in *; try discriminate; auto. f_equal. apply IH. lia.
Qed.

(** After setBreakpoints for a source, the active breakpoints of every other
    source are the same as before, those of this source are exactly the requested
    ones in order (none if the source is modified), and they are the ones the
    response describes. *)
Theorem C13_setbreakpoints_replaces_source : forall ops seq src l md,
  hist_wf (ops ++ [BSet seq src l md]) ->
  let d := brun ops in let d' := brun (ops ++ [BSet seq src l md]) in
  let sp := source_path src in
  filter (fun kb => negb (of_source sp kb)) (d_bps d') = filter (fun kb => negb (of_source sp kb)) (d_bps d) /\
  map (fun kb => lb_sb (snd kb)) (filter (of_source sp) (d_bps d')) = (if md then [] else l) /\
  (exists path, maps_to (d_maps d) sp path /\ forall kb, In kb (filter (of_source sp) (d_bps d')) -> lb_actual (snd kb) = path) /\
  (exists infos, d_out d' = d_out d ++ [Some (OBps seq infos)] /\
     (md = false -> map (fun kb => lb_bp (snd kb)) (filter (of_source sp) (d_bps d')) = infos)).
Proof.
  intros ops seq src l md W d d' sp. destruct (@c13 _ _ _ _ _ W) as (A & B & C & D). split; [exact A|]. split; [exact B|]. split; [|exact D].
  eexists. split; [now apply maps_to_actual|exact C].
Qed.
Print Assumptions C13_setbreakpoints_replaces_source.

Example C13_nonvacuous :
  map (fun kb => (fst kb, lb_actual (snd kb), sb_line (lb_sb (snd kb)))) (d_bps (brun ex_hist)) =
  [(3%N, s "/x/b.yml", 9); (4%N, s "/remote/a.yml", 100); (5%N, s "/remote/a.yml", 5); (6%N, s "/remote/a.yml", 0)].
Proof. vm_compute. reflexivity. Qed.

(* ---------------------------------------------------------------- C14 *)
(** setBreakpoints on a loaded file is answered (no error), and every entry is the
    region that contains the requested line, verified iff one can stop there. *)
Theorem C14_location_is_enclosing_region : forall ops seq src l,
  hist_wf (ops ++ [BSet seq src l false]) ->
  let d := brun ops in
  forall path, maps_to (d_maps d) (source_path src) path -> regs_of path ops <> [] ->
  exists infos,
    d_out (brun (ops ++ [BSet seq src l false])) = d_out d ++ [Some (OBps seq infos)] /\
    Forall2 (fun sb b => located (regs_of path ops) (sb_line sb) b) l infos.
Proof.
  intros ops seq src l W d path MT NE. destruct (@c12 _ _ _ _ _ W) as (infos & O & _ & _ & _ & _ & P & _).
  exists infos. split; [exact O|]. specialize (P eq_refl). fold d in P. apply maps_to_actual in MT. change (source_path src) with (py_or_empty (src_path src)) in MT. rewrite <- MT in P. clear O W.
  induction P as [|sb b l' i' H P IH]; constructor; auto. now apply placed_cons.
Qed.
Print Assumptions C14_location_is_enclosing_region.

(** The region of a line is unique, so the location is completely determined. *)
Theorem C14_location_is_determined : forall h q b b',
  located h q b -> located h q b' ->
  bp_verified b = bp_verified b' /\ bp_line b = bp_line b' /\ bp_end b = bp_end b'.
Proof. intros h q b b'. apply located_fun. intros; tauto. Qed.
Print Assumptions C14_location_is_determined.

Example C14_nonvacuous :
  map (fun b => (bp_verified b, bp_line b, bp_end b))
      (match last (d_out (brun ex_hist)) None with Some (OBps _ l) => l | _ => [] end) =
  [(true, Some 6, Some 6); (false, Some 5, Some 5); (false, Some 0, Some 0)]
  /\ regs_of (s "/remote/a.yml") ex_hist = [(1, 1); (5, 0); (6, 1)].
Proof. vm_compute. split; reflexivity. Qed.

(* ---------------------------------------------------------------- C15 *)
(** At every moment and for every active breakpoint, the last thing the client was
    told about it is exactly what the debugger matches tasks against, and that is
    the location given by all registrations of the file so far. *)
Theorem C15_client_view_current : forall ops, hist_wf ops ->
  let d := brun ops in
  NoDup (dkeys (d_bps d)) /\
  forall k b, In (k, b) (d_bps d) ->
    last_told (d_out d) k = Some (lb_bp b) /\
    placed (regs_of (lb_actual b) ops) (sb_line (lb_sb b)) (lb_bp b).
Proof.
  intros ops W d. pose proof (binv_run W) as I. split; [apply (bi_nodup I)|].
  intros k b H. apply (bi_bp I) in H. tauto.
Qed.
Print Assumptions C15_client_view_current.

(** The client is told about later changes: in the example the breakpoint of line 2
    is first pending and then reported in the region of the task at line 1. *)
Example C15_nonvacuous :
  map (fun n => match last_told (d_out (brun (firstn n ex_hist))) 1 with
                | Some b => Some (bp_verified b, bp_line b, bp_end b) | None => None end) [1; 3; 4; 5]%nat
  = [None; Some (false, Some 2, None); Some (true, Some 1, Some 1); Some (true, Some 1, Some 4)].
Proof. vm_compute. reflexivity. Qed.

(* ---------------------------------------------------------------- C16 *)
Lemma c16 ops path L : hist_wf ops -> regs_of path ops <> [] -> boundary (regs_of path ops) L ->
  let d := brun ops in
  ((exists b, get_breakpoint d path L = Some b) <->
   (exists k b, In (k, b) (d_bps d) /\ lb_actual b = path /\
       set_in_region_at (regs_of path ops) L (sb_line (lb_sb b)))) /\
  (forall b, get_breakpoint d path L = Some b ->
     exists k, In (k, b) (d_bps d) /\ lb_actual b = path /\ set_in_region_at (regs_of path ops) L (sb_line (lb_sb b))).
Proof.
  intros W NE HL d. pose proof (binv_run W) as I. fold d in I.
  assert (M : forall k b, In (k, b) (d_bps d) ->
     (bp_matches path L b = true <-> lb_actual b = path /\ set_in_region_at (regs_of path ops) L (sb_line (lb_sb b)))).
  { intros k b HI. destruct (bi_bp I _ _ HI) as (_ & _ & _ & _ & _ & _ & P).
    unfold bp_matches. rewrite <- andb_assoc, andb_true_iff, eqb_eq. split.
    - intros (E & X). split; auto. rewrite E in P. apply placed_cons in P; auto.
      now apply (located_match P HL).
    - intros (E & X). split; auto. rewrite E in P. apply placed_cons in P; auto.
      now apply (located_match P HL). }
  assert (S1 : forall b, get_breakpoint d path L = Some b ->
     exists k, In (k, b) (d_bps d) /\ lb_actual b = path /\ set_in_region_at (regs_of path ops) L (sb_line (lb_sb b))).
  { intros b H. unfold get_breakpoint in H. apply find_some in H. destruct H as (H1 & H2).
    apply dvals_In in H1. destruct H1 as (k & H1). exists k. split; auto. now apply (M k). }
  split; [|exact S1]. split.
  - intros (b & H). destruct (S1 _ H) as (k & H1). exists k, b. exact H1.
  - intros (k & b & H1 & H2). destruct (get_breakpoint d path L) as [b'|] eqn:E; [now exists b'|].
    exfalso. unfold get_breakpoint in E.
    assert (HV : In b (dvals (d_bps d))) by (apply dvals_In; eauto).
    pose proof (find_none _ _ E _ HV) as X. cbn in X. apply (M k b H1) in H2. congruence.
Qed.

(** For a task on a registered line of a loaded file a breakpoint is found iff an
    active breakpoint of that file was requested between that line and the next
    registered line (or anywhere after it if there is none). *)
Theorem C16_match_iff_set_in_region : forall ops path L,
  hist_wf ops -> regs_of path ops <> [] -> boundary (regs_of path ops) L ->
  let d := brun ops in
  ((exists b, get_breakpoint d path L = Some b) <->
   (exists k b, In (k, b) (d_bps d) /\ lb_actual b = path /\
       set_in_region_at (regs_of path ops) L (sb_line (lb_sb b)))) /\
  (forall b, get_breakpoint d path L = Some b ->
     exists k, In (k, b) (d_bps d) /\ lb_actual b = path /\ set_in_region_at (regs_of path ops) L (sb_line (lb_sb b))).
Proof. exact c16. Qed.
Print Assumptions C16_match_iff_set_in_region.

Example C16_nonvacuous :
  map (fun L => match get_breakpoint (brun ex_hist) (s "/remote/a.yml") L with Some b => Some (lb_id b) | None => None end)
      [1; 5; 6] = [None; Some 5%N; Some 4%N]
  /\ boundary (regs_of (s "/remote/a.yml") ex_hist) 1 /\ boundary (regs_of (s "/remote/a.yml") ex_hist) 6.
Proof.
  split; [vm_compute; reflexivity|].
  split; apply boundary_lk; vm_compute; discriminate.
Qed.

(* ---------------------------------------------------------------- C17 *)
(** In any two histories, two breakpoints requested on the same line of the same
    file have the same verified flag and range if the file's registrations agree -
    no matter when the breakpoints were set. *)
Theorem C17_order_does_not_matter : forall ops1 ops2 k1 b1 k2 b2,
  hist_wf ops1 -> hist_wf ops2 ->
  In (k1, b1) (d_bps (brun ops1)) -> In (k2, b2) (d_bps (brun ops2)) ->
  lb_actual b1 = lb_actual b2 -> sb_line (lb_sb b1) = sb_line (lb_sb b2) ->
  (regs_of (lb_actual b1) ops1 = [] <-> regs_of (lb_actual b1) ops2 = []) ->
  (forall l t, starts (regs_of (lb_actual b1) ops1) l t <-> starts (regs_of (lb_actual b1) ops2) l t) ->
  bp_verified (lb_bp b1) = bp_verified (lb_bp b2) /\ bp_line (lb_bp b1) = bp_line (lb_bp b2)
  /\ bp_end (lb_bp b1) = bp_end (lb_bp b2).
Proof.
  intros ops1 ops2 k1 b1 k2 b2 W1 W2 H1 H2 EA EL EN ES.
  apply (bi_bp (binv_run W1)) in H1. apply (bi_bp (binv_run W2)) in H2.
  destruct H1 as (_ & _ & _ & _ & _ & _ & P1). destruct H2 as (_ & _ & _ & _ & _ & _ & P2).
  rewrite <- EA, <- EL in P2.
  destruct (regs_of (lb_actual b1) ops1) as [|x h1] eqn:R1.
  - rewrite (proj1 EN eq_refl) in P2. cbn in P1, P2. unfold pending in *.
    destruct P1 as (-> & -> & ->), P2 as (-> & -> & ->). auto.
  - assert (NE : regs_of (lb_actual b1) ops2 <> []) by (intros X; apply EN in X; discriminate).
    apply placed_cons in P2; auto. eapply located_fun; eauto.
Qed.
Print Assumptions C17_order_does_not_matter.

(** Concretely: loading after or before setting. *)
Example C17_nonvacuous :
  let regs := [BReg (s "/p.yml") 3 1; BReg (s "/p.yml") 8 1] in
  let set := BSet 1 (ex_src "/p.yml") [ex_sb 5] false in
  map (fun kb => (bp_verified (lb_bp (snd kb)), bp_line (lb_bp (snd kb)), bp_end (lb_bp (snd kb)))) (d_bps (brun (set :: regs)))
  = [(true, Some 3, Some 7)] /\
  map (fun kb => (bp_verified (lb_bp (snd kb)), bp_line (lb_bp (snd kb)), bp_end (lb_bp (snd kb)))) (d_bps (brun (regs ++ [set])))
  = [(true, Some 3, Some 7)].
Proof. vm_compute. split; reflexivity. Qed.

(* ---------------------------------------------------------------- C18 *)

Lemma to_client_spec maps p :
  (exists m r, first_match m_remote maps p m /\ p = m_remote m ++ r /\ to_client maps p = m_local m ++ r)
  \/ ((forall m, In m maps -> ~ exists r, p = m_remote m ++ r) /\ to_client maps p = p).
Proof.
  induction maps as [|m maps IH]; cbn [to_client]; [right; split; auto|].
  destruct (startswith p (m_remote m)) eqn:E.
  - apply startswith_spec in E. destruct E as (r & ->). left. exists m, r. split; [|split; auto].
    + exists [], maps. cbn. split; [auto|]. split; [eauto|contradiction].
    + now rewrite slice_from_app.
  - assert (NP : ~ exists r, p = m_remote m ++ r) by (rewrite <- startswith_spec; congruence).
    destruct IH as [(m' & r & (bf & af & -> & X & Y) & Z)|(X & Y)].
    + left. exists m', r. split; [|exact Z]. exists (m :: bf), af. split; [auto|]. split; [auto|].
      intros m0 [<-|H]; auto.
    + right. split; auto. intros m0 [<-|H]; auto.
Qed.


(** First prefix match, remainder kept, unmatched paths unchanged, in both
    directions; and a client path comes back unchanged when the mapping used for it
    is also the first one that applies to the Ansible path. *)
Theorem C18_mapping_partial : forall maps p,
  ((exists m r, first_match m_local maps p m /\ p = m_local m ++ r /\ to_actual maps p = m_remote m ++ r)
   \/ ((forall m, In m maps -> ~ exists r, p = m_local m ++ r) /\ to_actual maps p = p)) /\
  ((exists m r, first_match m_remote maps p m /\ p = m_remote m ++ r /\ to_client maps p = m_local m ++ r)
   \/ ((forall m, In m maps -> ~ exists r, p = m_remote m ++ r) /\ to_client maps p = p)).
Proof. intros maps p. split; [apply to_actual_spec|apply to_client_spec]. Qed.
Print Assumptions C18_mapping_partial.

Theorem C18_roundtrip_partial : forall maps p m,
  first_match m_local maps p m -> first_match m_remote maps (to_actual maps p) m ->
  to_client maps (to_actual maps p) = p.
Proof.
  intros maps p m H1 H2.
  destruct (to_actual_spec maps p) as [(m1 & r & F & E & T)|(X & _)].
  - assert (m1 = m) by (eapply first_match_fun; eauto). subst m1.
    destruct (to_client_spec maps (to_actual maps p)) as [(m2 & r2 & F2 & E2 & T2)|(X & _)].
    + assert (m2 = m) by (eapply first_match_fun; eauto). subst m2. rewrite T2.
      rewrite T in E2. apply app_inv_head in E2. subst r2. now symmetry.
    + exfalso. destruct H2 as (b & a & -> & R & _). apply (X m); [apply in_or_app; right; now left|exact R].
  - exfalso. destruct H1 as (b & a & -> & R & _). apply (X m); [apply in_or_app; right; now left|exact R].
Qed.
Print Assumptions C18_roundtrip_partial.

(** A root given with a trailing slash only captures what is below it. *)
Theorem C18_capture_partial : forall maps p m,
  first_match m_local maps p m -> ends_with_slash (m_local m) -> below (m_local m) p.
Proof.
  intros maps p m (b & a & _ & (r & ->) & _) H. exists r. auto.
Qed.
Print Assumptions C18_capture_partial.

(** Without one it also captures siblings whose name starts with the same text: the
    client path /src/app2/x.yml is rewritten by the mapping of /src/app. *)
Theorem C18_root_captures_sibling_refuted :
  ~ (forall maps p m, first_match m_local maps p m -> to_actual maps p <> p -> below (m_local m) p).
Proof.
  intros H.
  specialize (H [mkMap (s "/src/app") (s "/opt/app")] (s "/src/app2/x.yml") (mkMap (s "/src/app") (s "/opt/app"))).
  destruct H as (r & E & X).
  - exists [], []. split; [reflexivity|]. split; [|intros m' []]. exists (s "2/x.yml"). reflexivity.
  - vm_compute. discriminate.
  - cbn [m_local] in *. change (s "/src/app2/x.yml") with (s "/src/app" ++ s "2/x.yml") in E.
    apply app_inv_head in E. subst r. destruct X as [X|[(r & X)|(q & X)]].
    + discriminate.
    + discriminate.
    + apply (f_equal (fun l => last l 0%N)) in X. rewrite last_last in X. vm_compute in X. discriminate.
Qed.
Print Assumptions C18_root_captures_sibling_refuted.

Example C18_nonvacuous :
  let maps := [mkMap (s "/local") (s "/remote")] in
  to_actual maps (s "/local/a.yml") = s "/remote/a.yml" /\ to_client maps (s "/remote/a.yml") = s "/local/a.yml"
  /\ to_actual maps (s "/other/a.yml") = s "/other/a.yml".
Proof. vm_compute. auto. Qed.

(* ---------------------------------------------------------------- C19 *)
Lemma set_loop_frame src sp ap md info l : forall acc d,
  d_exc (fst (set_loop src sp ap md info l acc d)) = d_exc d /\
  d_thread (fst (set_loop src sp ap md info l acc d)) = d_thread d /\
  d_frame (fst (set_loop src sp ap md info l acc d)) = d_frame d /\
  d_var (fst (set_loop src sp ap md info l acc d)) = d_var d /\
  d_maps (fst (set_loop src sp ap md info l acc d)) = d_maps d /\
  d_src (fst (set_loop src sp ap md info l acc d)) = d_src d /\
  d_confdone (fst (set_loop src sp ap md info l acc d)) = d_confdone d /\
  d_term (fst (set_loop src sp ap md info l acc d)) = d_term d /\
  d_out (fst (set_loop src sp ap md info l acc d)) = d_out d.
Proof.
  induction l as [|sb l IH]; intros acc d; cbn [set_loop fst]; [repeat split|].
  destruct md.
  - match goal with |- context [set_loop _ _ _ _ _ l ?a ?x] => destruct (IH a x) as (A1 & A2 & A3 & A4 & A5 & A6 & A7 & A8 & A9) end.
    rewrite A1, A2, A3, A4, A5, A6, A7, A8, A9. repeat split.
  - match goal with |- context [match ?c with Ok _ => _ | Err _ => _ end] => destruct c as [bp|e] end; [|repeat split].
    match goal with |- context [set_loop _ _ _ _ _ l ?a ?x] => destruct (IH a x) as (A1 & A2 & A3 & A4 & A5 & A6 & A7 & A8 & A9) end.
    rewrite A1, A2, A3, A4, A5, A6, A7, A8, A9. repeat split.
Qed.
Lemma set_breakpoints_frame seq src l md d :
  let d' := fst (set_breakpoints seq src l md d) in
  d_exc d' = d_exc d /\ d_thread d' = d_thread d /\ d_frame d' = d_frame d /\ d_var d' = d_var d /\
  d_maps d' = d_maps d /\ d_src d' = d_src d /\ d_confdone d' = d_confdone d /\ d_term d' = d_term d.
Proof.
  intros d'. subst d'. unfold set_breakpoints.
  match goal with |- context [set_loop ?a ?b ?c ?e ?f l ?g ?x] =>
    destruct (set_loop_frame a b c e f l g x) as (A1 & A2 & A3 & A4 & A5 & A6 & A7 & A8 & A9);
    destruct (set_loop a b c e f l g x) as (d2, [infos|er]) end; cbn [fst] in *; cbn; repeat split; auto.
Qed.
Lemma register_frame p line t d :
  let d' := fst (register_path_breakpoint p line t d) in
  d_exc d' = d_exc d /\ d_thread d' = d_thread d /\ d_frame d' = d_frame d /\ d_var d' = d_var d /\
  d_maps d' = d_maps d /\ d_confdone d' = d_confdone d /\ d_term d' = d_term d /\ d_bpctr d' = d_bpctr d.
Proof.
  intros d'. subst d'. unfold register_path_breakpoint.
  destruct (py_setitem _ line (Some t)) as [fl2|]; [|cbn; repeat split].
  destruct (refresh p fl2 (d_bps d)) as ((bps', ev), x). cbn [fst].
  match goal with |- context [queue_all ?a ?b] => destruct (queue_all_same a b) as (A1 & A2 & A3 & A4 & A5 & A6 & A7 & A8 & A9 & A10) end.
  rewrite A2, A4, A5, A6, A7, A8, A9, A10. repeat split.
Qed.

Lemma fold_dset_true f filters x :
  dget (fold_left (fun x f => dset x f true) filters x) f =
  if in_dec (list_eq_dec N.eq_dec) f filters then Some true else dget x f.
Proof.
  revert x; induction filters as [|g filters IH]; intros x; cbn [fold_left]; [reflexivity|].
  rewrite IH. destruct (in_dec _ f filters) as [I|I], (in_dec _ f (g :: filters)) as [J|J]; auto.
  - exfalso. apply J. now right.
  - destruct J as [->|J]; [|contradiction]. apply dget_dset_same.
  - rewrite dget_dset. destruct (eqb_spec g f) as [->|N]; auto. exfalso. apply J. now left.
Qed.

Lemma bstep_exc d o : d_exc (bstep d o) =
  match o with BExc _ f => fold_left (fun x f => dset x f true) f [] | _ => d_exc d end.
Proof.
  destruct o as [seq src l md|seq fs|p line t| |maps|m| | | | |]; cbn [bstep]; try reflexivity.
  - destruct (set_breakpoints_frame seq src l md d) as (E & _). destruct (set_breakpoints seq src l md d) as (d', [u|e]); exact E.
  - apply (register_frame p line t d).
Qed.

(** After any history each stop switch is on iff its filter is in the most recent
    setExceptionBreakpoints request (off before the first one).  Disconnecting does
    not change it: see C22. *)
Theorem C19_exception_filters : forall ops f,
  exc_on f (brun ops) = true <-> In f (last_filters ops).
Proof.
  intros ops f. induction ops as [|o ops IH] using rev_ind; [cbn; split; [discriminate|contradiction]|].
  rewrite brun_snoc. unfold exc_on, last_filters in *. rewrite bstep_exc, fold_left_app. cbn [fold_left].
  destruct o; try exact IH.
  rewrite fold_dset_true. destruct (in_dec _ f filters); cbn; split; auto; discriminate.
Qed.
Print Assumptions C19_exception_filters.

Example C19_nonvacuous :
  (should_stop_on_error (brun ex_hist), should_stop_on_skipped (brun ex_hist)) = (true, false) /\
  should_stop_on_error (brun (ex_hist ++ [BExc 9 [f_skipped; f_unreachable]])) = false.
Proof. vm_compute. auto. Qed.

(* ---------------------------------------------------------------- C21 *)
Definition is_thread o := match o with BThread => true | _ => false end.
Definition is_frame o := match o with BFrame => true | _ => false end.
Definition is_var o := match o with BVar => true | _ => false end.

Lemma bstep_ctrs d o :
  d_thread (bstep d o) = (d_thread d + if is_thread o then 1 else 0)%N /\
  d_frame (bstep d o) = (d_frame d + if is_frame o then 1 else 0)%N /\
  d_var (bstep d o) = (d_var d + if is_var o then 1 else 0)%N.
Proof.
  destruct o as [seq src l md|seq fs|p line t| |maps|m| | | | |]; cbn [bstep is_thread is_frame is_var];
    try (cbn; lia).
  - destruct (set_breakpoints_frame seq src l md d) as (_ & E1 & E2 & E3 & _).
    destruct (set_breakpoints seq src l md d) as (d', [u|e]); cbn in *; lia.
  - destruct (register_frame p line t d) as (_ & E1 & E2 & E3 & _). lia.
Qed.

Lemma ids_mono (next : Dbg -> N) (sel : bop -> bool) :
  (forall d o, next (bstep d o) = (next d + if sel o then 1 else 0)%N) ->
  forall ops d, NoDup (ids next sel d ops) /\ forall x, In x (ids next sel d ops) -> (next d <= x)%N.
Proof.
  intros H ops. induction ops as [|o ops IH]; intros d; cbn [ids]; [split; [constructor|contradiction]|].
  destruct (IH (bstep d o)) as (N1 & N2). rewrite H in N2. destruct (sel o); cbn [app].
  - split.
    + constructor; auto. intros K. apply N2 in K. lia.
    + intros x [<-|K]; [lia|]. apply N2 in K. lia.
  - split; auto. intros x K. apply N2 in K. lia.
Qed.

Lemma NoDup_app_intro {A} (l1 l2 : list A) : NoDup l1 -> NoDup l2 -> (forall x, In x l1 -> ~ In x l2) -> NoDup (l1 ++ l2).
Proof.
  induction l1 as [|a l1 IH]; cbn; intros H1 H2 H; auto.
  inversion H1 as [|? ? N1 N2]; subst. constructor.
  - rewrite in_app_iff. intros [K|K]; [contradiction|]. apply (H a); auto.
  - apply IH; auto.
Qed.

Lemma answered_told m : incl (answered_ids m) (map bp_id (told m)).
Proof. destruct m as [[]|]; cbn; intros x Hx; auto; contradiction. Qed.

Lemma c21_bps ops : hist_wf ops -> NoDup (flat_map answered_ids (d_out (brun ops))).
Proof.
  induction ops as [|o ops IH] using rev_ind; intros W; [constructor|].
  assert (W0 : hist_wf ops) by (intros x Hx; apply W; apply in_or_app; now left).
  specialize (IH W0). rewrite brun_snoc. pose proof (binv_run W0) as I.
  assert (Wo : op_wf o) by (apply W; apply in_or_app; right; now left).
  assert (Q : forall ms, d_out (bstep (brun ops) o) = d_out (brun ops) ++ ms -> flat_map answered_ids ms = [] ->
     NoDup (flat_map answered_ids (d_out (bstep (brun ops) o)))).
  { intros ms E1 E2. rewrite E1, flat_map_app, E2, app_nil_r. exact IH. }
  destruct o as [seq src l md|seq fs|p line t| |maps|m| | | | |]; cbn [op_wf] in Wo.
  - destruct (@c12 _ _ _ _ _ W) as (infos & O & _ & _ & ND & FR & _). rewrite brun_snoc in O. rewrite O, flat_map_app.
    cbn [flat_map answered_ids]. rewrite app_nil_r. apply NoDup_app_intro; auto.
    intros x H1 H2. apply in_flat_map in H1. destruct H1 as (m & Hm & Hx). apply answered_told in Hx.
    apply in_map_iff in Hx. destruct Hx as (b0 & <- & Hb0). apply in_map_iff in H2. destruct H2 as (b & E & Hb).
    apply (FR b m b0 Hb Hm Hb0). exact E.
  - apply (Q [Some (OAck CSetExceptionBreakpoints seq)]); reflexivity.
  - cbn [bstep]. unfold register_path_breakpoint in *. 
    destruct (py_setitem _ line (Some t)) as [fl2|] eqn:EQ.
    + destruct (refresh p fl2 (d_bps (brun ops))) as ((bps', ev), x) eqn:ER. cbn [fst].
      rewrite queue_all_out, flat_map_app. cbn [d_out set_bps set_src].
      replace (flat_map answered_ids (map Some (map OBpEvent ev))) with (@nil N); [now rewrite app_nil_r|].
      clear. induction ev; cbn; auto.
    + exact IH.
  - apply (Q []); [cbn; now rewrite app_nil_r|reflexivity].
  - apply (Q [Some OInitialized]); reflexivity.
  - apply (Q [m]); [reflexivity|]. destruct m as [[]|]; cbn [told flat_map answered_ids] in *; try rewrite Wo; reflexivity.
  - apply (Q []); [cbn; now rewrite app_nil_r|reflexivity].
  - apply (Q []); [cbn; now rewrite app_nil_r|reflexivity].
  - apply (Q []); [cbn; now rewrite app_nil_r|reflexivity].
  - apply (Q []); [cbn; now rewrite app_nil_r|reflexivity].
  - apply (Q []); [cbn; now rewrite app_nil_r|reflexivity].
Qed.

(** Over the life of the process, ids of a kind are pairwise distinct; host threads
    are numbered from 2 (1 is the main thread), variables from 1 (0 means no
    children). *)
Theorem C21_ids_never_reused : forall ops,
  let th := ids (fun d => fst (next_thread_id d)) is_thread dbg_init ops in
  let fr := ids (fun d => fst (next_stackframe_id d)) is_frame dbg_init ops in
  let va := ids (fun d => fst (next_variable_id d)) is_var dbg_init ops in
  NoDup th /\ NoDup fr /\ NoDup va /\ ~ In 1%N th /\ ~ In 0%N va /\
  (hist_wf ops -> NoDup (flat_map answered_ids (d_out (brun ops)))).
Proof.
  intros ops th fr va.
  destruct (@ids_mono (fun d => fst (next_thread_id d)) is_thread (fun d o => proj1 (bstep_ctrs d o)) ops dbg_init) as (T1 & T2).
  destruct (@ids_mono (fun d => fst (next_stackframe_id d)) is_frame (fun d o => proj1 (proj2 (bstep_ctrs d o))) ops dbg_init) as (F1 & F2).
  destruct (@ids_mono (fun d => fst (next_variable_id d)) is_var (fun d o => proj2 (proj2 (bstep_ctrs d o))) ops dbg_init) as (V1 & V2).
  repeat split; auto.
  - intros K. apply T2 in K. cbn in K. lia.
  - intros K. apply V2 in K. cbn in K. lia.
  - apply c21_bps.
Qed.
Print Assumptions C21_ids_never_reused.

Example C21_nonvacuous :
  ids (fun d => fst (next_thread_id d)) is_thread dbg_init [BThread; BClear; BThread; BVar; BThread] = [2; 3; 4]%N
  /\ flat_map answered_ids (d_out (brun ex_hist)) = [1; 2; 3; 4; 5; 6]%N.
Proof. vm_compute. auto. Qed.
