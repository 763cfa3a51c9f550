(** C56: loading a play or a list of blocks registers exactly its stop places. *)
From Verif Require Import PyBase PyDict Digits DbgTypes BpModel BpSpec BpProofs BpProofs2 BpProofs3 TreeModel.
Set Implicit Arguments.
Local Open Scope N_scope.
Ltac csplit := repeat match goal with |- _ /\ _ => split end.

(** * Vocabulary *)
Definition path_of (x : item) : pystr := match x with ITask p => p | IBlock p _ _ _ => p end.
(** One can stop at tasks, not at blocks. *)
Definition kind_of (x : item) : Z := match x with ITask _ => 1 | IBlock _ _ _ _ => 0 end.
(** [x] is in the list or somewhere below one of its blocks (block, rescue or always). *)
Inductive inside (x : item) : list item -> Prop :=
| in_here l : In x l -> inside x l
| in_below p b r a l : In (IBlock p b r a) l -> inside x (b ++ r ++ a) -> inside x l.
(** The path text of a place. *)
Definition place (src : pystr) (line : N) : pystr := src ++ s ":" ++ digits line.
(** Every path that is known is a place. *)
Definition paths_ok (l : list item) : Prop := forall x, inside x l -> path_of x = [] \/ exists src line, path_of x = place src line.
Definition registers (regs : list (pystr * Z * Z)) : list bop := map (fun '(p, line, t) => BReg p line t) regs.

Lemma item_ind' (P : item -> Prop) : (forall p, P (ITask p)) -> (forall p b r a, Forall P b -> Forall P r -> Forall P a -> P (IBlock p b r a)) -> forall x, P x.
Proof.
  intros HT HB. fix IH 1. intros [p|p b r a]; [apply HT|]. apply HB.
  - induction b as [|x b IHb]; constructor; [apply IH|exact IHb].
  - induction r as [|x r IHr]; constructor; [apply IH|exact IHr].
  - induction a as [|x a IHa]; constructor; [apply IH|exact IHa].
Qed.
(** The registrations in order. *)
Definition opt (p : pystr) (t : Z) : list (pystr * Z) := if eqb p [] then [] else [(p, t)].
Fixpoint calls (x : item) : list (pystr * Z) :=
  match x with ITask p => opt p 1 | IBlock p b r a => opt p 0 ++ flat_map calls b ++ flat_map calls r ++ flat_map calls a end.
Fixpoint runl (l : list (pystr * Z)) : eff := match l with [] => ret | (p, t) :: l => andthen (reg_path p t) (runl l) end.
Lemma runl_app l1 l2 d : runl (l1 ++ l2) d = andthen (runl l1) (runl l2) d.
Proof.
  revert d. induction l1 as [|(p, t) l1 IH]; intros d; [reflexivity|]. cbn [app runl]. unfold andthen in *. destruct (reg_path p t d) as (d', [u|e]); [apply IH|reflexivity].
Qed.
Lemma andthen_ext a a' b b' d : (forall d, a d = a' d) -> (forall d, b d = b' d) -> andthen a b d = andthen a' b' d.
Proof. intros A B. unfold andthen. rewrite A. destruct (a' d) as (d', [u|e]); auto. Qed.
Lemma reg_if_calls p t d : reg_if p t d = runl (opt p t) d.
Proof. unfold reg_if, opt. destruct (eqb p []); [reflexivity|]. cbn [runl]. unfold andthen, ret. destruct (reg_path p t d) as (d', [[]|e]); reflexivity. Qed.
Lemma reg_item_calls x : forall d, reg_item x d = runl (calls x) d.
Proof.
  induction x as [p|p b r a Hb Hr Ha] using item_ind'; intros d; [apply reg_if_calls|]. cbn [reg_item calls].
  set (each := fix each (l : list item) : eff := match l with [] => ret | x :: l => andthen (reg_item x) (each l) end).
  assert (E : forall l, Forall (fun x => forall d, reg_item x d = runl (calls x) d) l -> forall d, each l d = runl (flat_map calls l) d).
  { induction 1 as [|x l H _ IH]; intros d'; [reflexivity|]. cbn [flat_map]. rewrite runl_app. change (each (x :: l)) with (andthen (reg_item x) (each l)). now apply andthen_ext. }
  rewrite runl_app. apply andthen_ext; [apply reg_if_calls|]. intros d1. rewrite runl_app. apply andthen_ext; [now apply E|]. intros d2. rewrite runl_app. apply andthen_ext; now apply E.
Qed.
Lemma reg_blocks_calls l : forall d, register_block_breakpoints l d = runl (flat_map calls l) d.
Proof.
  induction l as [|x l IH]; intros d; [reflexivity|]. cbn [flat_map]. rewrite runl_app. change (register_block_breakpoints (x :: l)) with (andthen (reg_item x) (register_block_breakpoints l)).
  apply andthen_ext; [apply reg_item_calls|exact IH].
Qed.
Lemma inside_app x l1 l2 : inside x (l1 ++ l2) <-> inside x l1 \/ inside x l2.
Proof.
  split.
  - intros H. inversion H as [? I|p b r a ? I B]; subst; apply in_app_or in I as [I|I]; [left; now constructor|right; now constructor|left; eapply in_below; eauto|right; eapply in_below; eauto].
  - intros [H|H]; (inversion H as [? I|p b r a ? I B]; subst; [apply in_here; apply in_or_app; auto|apply (@in_below x p b r a); [apply in_or_app; auto|exact B]]).
Qed.
Lemma opt_in p t q k : In (q, k) (opt p t) <-> p = q /\ k = t /\ q <> [].
Proof.
  unfold opt. destruct (eqb_spec p []) as [-> |NE]; cbn; [split; [intros []|intros (<- & _ & H); congruence]|]. split; [intros [E|[]]; injection E as <- <-; auto|intros (-> & -> & _); auto].
Qed.
Lemma calls_list (l : list item) : Forall (fun x => forall q k, In (q, k) (calls x) <-> exists y, inside y [x] /\ path_of y = q /\ kind_of y = k /\ q <> []) l ->
  forall q k, In (q, k) (flat_map calls l) <-> exists y, inside y l /\ path_of y = q /\ kind_of y = k /\ q <> [].
Proof.
  induction 1 as [|x l H _ IH]; intros q k.
  - cbn. split; [intros []|]. intros (y & I & _). inversion I as [? J|? ? ? ? ? J]; destruct J.
  - cbn [flat_map]. rewrite in_app_iff, H, IH. split.
    + intros [(y & I & R)|(y & I & R)]; exists y; (split; [|exact R]); apply (@inside_app y [x] l); auto.
    + intros (y & I & R). apply (@inside_app y [x] l) in I as [I|I]; [left|right]; eauto.
Qed.
Lemma calls_in x : forall q k, In (q, k) (calls x) <-> exists y, inside y [x] /\ path_of y = q /\ kind_of y = k /\ q <> [].
Proof.
  induction x as [p|p b r a Hb Hr Ha] using item_ind'; intros q k; cbn [calls].
  - rewrite opt_in. split.
    + intros (<- & -> & NE). exists (ITask p). csplit; auto. constructor. now left.
    + intros (y & I & P & K & NE). inversion I as [? J|? ? ? ? ? J]; subst; destruct J as [J|[]]; subst; [|discriminate]. auto.
  - assert (F : Forall (fun x => forall q k, In (q, k) (calls x) <-> exists y, inside y [x] /\ path_of y = q /\ kind_of y = k /\ q <> []) (b ++ r ++ a)) by (rewrite !Forall_app; auto).
    rewrite <- !flat_map_app, in_app_iff, opt_in, (calls_list F). split.
    + intros [(<- & -> & NE)|(y & I & R)]; [exists (IBlock p b r a); csplit; auto; constructor; now left|]. exists y. split; [|exact R]. eapply in_below; [now left|exact I].
    + intros (y & I & P & K & NE). inversion I as [? J|? ? ? ? ? J B]; subst; destruct J as [J|[]]; subst; [left; auto|]. injection J as -> -> -> ->. right. eauto.
Qed.
Lemma list_calls_in l q k : In (q, k) (flat_map calls l) <-> exists y, inside y l /\ path_of y = q /\ kind_of y = k /\ q <> [].
Proof. apply calls_list. apply Forall_forall. intros x _. apply calls_in. Qed.

(** * Places *)
Lemma rsplit_none l : ~ In 58 l -> rsplit_colon l = None.
Proof. induction l as [|c l IH]; intros H; [reflexivity|]. cbn. rewrite IH by (intros I; apply H; now right). destruct (N.eqb_spec c 58) as [-> |_]; [exfalso; apply H; now left|reflexivity]. Qed.
Lemma rsplit_last a b : ~ In 58 b -> rsplit_colon (a ++ 58 :: b) = Some (a, b).
Proof.
  intros H. induction a as [|c a IH]; cbn [app rsplit_colon]; [now rewrite (@rsplit_none b H)|]. now rewrite IH.
Qed.
Lemma split_place src line : split_task_path (place src line) = Ok (src, Z.of_N line).
Proof.
  destruct (digits_ok line) as (V & D & (d & r' & NE & _)). unfold split_task_path, place. change (s ":" ++ digits line) with (58 :: digits line). rewrite rsplit_last.
  - assert (F : forallb is_digit (digits line) = true) by (apply forallb_forall; rewrite Forall_forall in D; exact D). rewrite F. destruct (eqb_spec (digits line) []) as [E|_]; [congruence|]. cbn [negb andb]. now rewrite V.
  - intros I. rewrite Forall_forall in D. apply D in I. discriminate.
Qed.
Lemma place_inj s1 l1 s2 l2 : place s1 l1 = place s2 l2 -> s1 = s2 /\ l1 = l2.
Proof. intros E. pose proof (split_place s1 l1) as A. rewrite E, split_place in A. injection A as <- H. apply N2Z.inj in H. auto. Qed.

Lemma runl_ok l : forall ops, hist_wf ops -> (forall p t, In (p, t) l -> exists src line, p = place src line) ->
  exists regs, runl l (brun ops) = (brun (ops ++ registers regs), Ok tt) /\ hist_wf (ops ++ registers regs) /\
    (forall src line t, In (src, line, t) regs <-> exists n, line = Z.of_N n /\ In (place src n, t) l).
Proof.
  induction l as [|(p, t) l IH]; intros ops W H.
  - exists []. cbn. rewrite app_nil_r. csplit; auto. intros src line t. split; [intros []|intros (n & _ & [])].
  - destruct (H p t (or_introl eq_refl)) as (src & n & ->). cbn [runl]. unfold andthen, reg_path. rewrite split_place.
    assert (WR : op_wf (BReg src (Z.of_N n) t)) by (cbn; lia). destruct (@reg_ok (brun ops) ops src (Z.of_N n) t (binv_run W) WR) as (d' & E & _).
    assert (W' : hist_wf (ops ++ [BReg src (Z.of_N n) t])) by (intros o I; apply in_app_or in I as [I|[<-|[]]]; [now apply W|exact WR]).
    destruct (IH (ops ++ [BReg src (Z.of_N n) t]) W') as (regs & R & WF & M); [intros p' t' I'; apply (H p' t'); now right|].
    assert (B : brun (ops ++ [BReg src (Z.of_N n) t]) = d') by (unfold brun; rewrite fold_left_app; cbn [fold_left bstep]; fold (brun ops); now rewrite E).
    exists ((src, Z.of_N n, t) :: regs). rewrite E, <- B, R. change (registers ((src, Z.of_N n, t) :: regs)) with ([BReg src (Z.of_N n) t] ++ registers regs). rewrite app_assoc. csplit; auto.
    intros src' line t'. cbn [In]. rewrite M. split.
    + intros [E'|(m & -> & I)]; [injection E' as <- <- <-; eauto|eauto].
    + intros (m & -> & [E'|I]); [|eauto]. injection E' as E' <-. apply place_inj in E' as (-> & ->). now left.
Qed.

(** C56: registering blocks never fails and registers exactly the places of the tasks
    (one can stop there) and of the blocks (one cannot) anywhere in the lists. *)
Theorem C56_blocks ops l : hist_wf ops -> paths_ok l ->
  exists regs, register_block_breakpoints l (brun ops) = (brun (ops ++ registers regs), Ok tt) /\ hist_wf (ops ++ registers regs) /\
    (forall src line t, In (src, line, t) regs <-> exists n x, line = Z.of_N n /\ inside x l /\ path_of x = place src n /\ t = kind_of x).
Proof.
  intros W P. rewrite reg_blocks_calls. destruct (@runl_ok (flat_map calls l) ops W) as (regs & R & WF & M).
  - intros p t I. apply list_calls_in in I as (y & I & <- & _ & NE). destruct (P y I) as [E|E]; [congruence|exact E].
  - exists regs. csplit; auto. intros src line t. rewrite M. split.
    + intros (n & -> & I). apply list_calls_in in I as (y & I & E & <- & NE). eauto 6.
    + intros (n & x & -> & I & E & ->). exists n. split; [reflexivity|]. apply list_calls_in. exists x. csplit; auto. intros Z. unfold place in Z. apply app_eq_nil in Z as (_ & Z). discriminate.
Qed.
(** The whole playbook: the lines of the plays and everything inside their tasks, handlers
    and role handlers. *)
Definition play_items (p : play) : list item := pl_compiled p ++ pl_handlers p ++ concat (pl_roles p).
Theorem C56_plays plays : forall ops, hist_wf ops -> (forall p, In p plays -> paths_ok (play_items p) /\ exists src line, pl_path p = place src line) ->
  exists regs, register_play_breakpoints plays (brun ops) = (brun (ops ++ registers regs), Ok tt) /\ hist_wf (ops ++ registers regs) /\
    (forall src line t, In (src, line, t) regs <-> exists n p, line = Z.of_N n /\ In p plays /\
       ((pl_path p = place src n /\ t = 1%Z) \/ exists x, inside x (play_items p) /\ path_of x = place src n /\ t = kind_of x)).
Proof.
  induction plays as [|p plays IH]; intros ops W P.
  - exists []. cbn. rewrite app_nil_r. csplit; auto. intros src line t. split; [intros []|intros (n & p & _ & [] & _)].
  - destruct (P p (or_introl eq_refl)) as (PI & ps & pn & PP).
    change (register_play_breakpoints (p :: plays)) with (andthen (reg_path (pl_path p) 1) (andthen (register_block_breakpoints (play_items p)) (register_play_breakpoints plays))).
    destruct (@runl_ok [(pl_path p, 1%Z)] ops W) as (r0 & R0 & W0 & M0). { intros q t [E|[]]. injection E as <- <-. eauto. }
    destruct (@C56_blocks _ (play_items p) W0 PI) as (r1 & R1 & W1 & M1). destruct (IH _ W1) as (r2 & R2 & W2 & M2); [intros; apply P; now right|].
    exists (r0 ++ r1 ++ r2). assert (A : ops ++ registers (r0 ++ r1 ++ r2) = ((ops ++ registers r0) ++ registers r1) ++ registers r2) by (unfold registers; rewrite !map_app, !app_assoc; reflexivity).
    rewrite A. cbn [runl] in R0. unfold andthen at 1 in R0. unfold ret in R0. unfold andthen. destruct (reg_path (pl_path p) 1 (brun ops)) as (d0, [[]|]); [|discriminate]. injection R0 as ->. rewrite R1, R2. csplit; auto.
    intros src line t. rewrite !in_app_iff, M0, M1, M2. split.
    + intros [(n & -> & [E|[]])|[(n & x & -> & I & E & ->)|(n & q & -> & I & R)]].
      * injection E as E <-. exists n, p. csplit; [reflexivity|now left|left; auto].
      * exists n, p. csplit; [reflexivity|now left|right; eauto].
      * exists n, q. csplit; [reflexivity|now right|exact R].
    + intros (n & q & -> & [<-|I] & R).
      * destruct R as [(E & ->)|(x & I & E & ->)]; [left; exists n; split; [reflexivity|left; now rewrite E]|right; left; eauto 6].
      * right; right. eauto 6.
Qed.
(** Consequences for where breakpoints can be set: a task's line is a place to stop (unless
    a block claims the same line), a block's line is not, and all other lines are as
    before. *)
Lemma regs_of_app path o1 o2 : regs_of path (o1 ++ o2) = regs_of path o1 ++ regs_of path o2.
Proof. induction o1 as [|o o1 IH]; [reflexivity|]. cbn [app regs_of]. destruct o; auto. destruct (list_eq_dec N.eq_dec path0 path); [cbn; now rewrite IH|exact IH]. Qed.
Lemma starts_all h rs l t : (forall t', In (l, t') rs -> t' = t) -> In (l, t) rs -> starts (h ++ rs) l t.
Proof.
  revert h. induction rs as [|(l0, t0) rs IH] using rev_ind; intros h U I; [destruct I|]. rewrite app_assoc.
  destruct (Z.eq_dec l0 l) as [-> |NE]; [rewrite (U t0) by (apply in_or_app; right; now left); constructor|]. apply starts_old; [|congruence]. apply IH; [intros; apply U, in_or_app; now left|].
  apply in_app_or in I as [I|[E|[]]]; [exact I|]. congruence.
Qed.
Lemma starts_none h rs l t : (forall t', ~ In (l, t') rs) -> (starts (h ++ rs) l t <-> starts h l t).
Proof.
  intros U. induction rs as [|(l0, t0) rs IH] using rev_ind; [now rewrite app_nil_r|]. rewrite app_assoc.
  assert (NE : l <> l0) by (intros ->; apply (U t0), in_or_app; right; now left). rewrite <- IH by (intros t' I; apply (U t'), in_or_app; now left). split.
  - intros H. inversion H as [E|h' ? ? E|h' ? ? ? ? S N E]; subst.
    + destruct (app_cons_not_nil _ _ _ (eq_trans E eq_refl)).
    + apply app_inj_tail in E as (_ & E). congruence.
    + apply app_inj_tail in E as (-> & _). exact S.
  - intros S. now apply starts_old.
Qed.
Lemma regs_of_in path regs l t : In (l, t) (regs_of path (registers regs)) <-> In (path, l, t) regs.
Proof.
  induction regs as [|((p, l0), t0) regs IH]; [reflexivity|]. cbn [registers map regs_of]. fold (registers regs). destruct (list_eq_dec N.eq_dec p path) as [-> |NE]; cbn [In]; rewrite IH; [split; intros [E|E]; auto; left; congruence|].
  split; [auto|intros [E|E]; [congruence|exact E]].
Qed.
Theorem C56_places ops l : hist_wf ops -> paths_ok l ->
  exists ops', fst (register_block_breakpoints l (brun ops)) = brun ops' /\ hist_wf ops' /\
    (forall src n, (exists x, inside x l /\ path_of x = place src n /\ kind_of x = 1%Z) -> (forall x, inside x l -> path_of x = place src n -> kind_of x = 1%Z) -> starts (regs_of src ops') (Z.of_N n) 1) /\
    (forall src n, (exists x, inside x l /\ path_of x = place src n /\ kind_of x = 0%Z) -> (forall x, inside x l -> path_of x = place src n -> kind_of x = 0%Z) -> starts (regs_of src ops') (Z.of_N n) 0) /\
    (forall src n t, (forall x, inside x l -> path_of x <> place src n) -> (starts (regs_of src ops') (Z.of_N n) t <-> starts (regs_of src ops) (Z.of_N n) t)).
Proof.
  intros W P. destruct (C56_blocks W P) as (regs & R & WF & M). exists (ops ++ registers regs). rewrite R. csplit; auto.
  - intros src n (x & I & E & K) U. rewrite regs_of_app. apply starts_all.
    + intros t' J. apply regs_of_in, M in J as (m & y & EQ & I' & E' & ->). apply N2Z.inj in EQ. subst. now apply U.
    + apply regs_of_in, M. exists n, x. auto.
  - intros src n (x & I & E & K) U. rewrite regs_of_app. apply starts_all.
    + intros t' J. apply regs_of_in, M in J as (m & y & EQ & I' & E' & ->). apply N2Z.inj in EQ. subst. now apply U.
    + apply regs_of_in, M. exists n, x. auto.
  - intros src n t U. rewrite regs_of_app. apply starts_none.
    intros t' J. apply regs_of_in, M in J as (m & y & EQ & I' & E' & _). apply N2Z.inj in EQ. subst. now apply (U y).
Qed.

(** Cases: a block with a rescue section that holds a static import (a nested block without
    path), and a task without path. *)
Definition demo_tree : list item :=
  [IBlock (s "") [ITask (s "/p/a:b.yml:4"); IBlock (s "/p/a:b.yml:6") [ITask (s "/p/a:b.yml:7")] [IBlock (s "") [ITask (s "/p/t.yml:1")] [] []] [ITask (s "")]] [] []].
Fixpoint flat (x : item) : list item := match x with ITask p => [x] | IBlock p b r a => x :: flat_map flat b ++ flat_map flat r ++ flat_map flat a end.
Lemma flat_in x y : inside y [x] -> In y (flat x).
Proof.
  revert y. induction x as [p|p b r a Hb Hr Ha] using item_ind'; intros y I.
  - inversion I as [? J|? ? ? ? ? J]; subst; destruct J as [J|[]]; [now left|discriminate].
  - inversion I as [? J|? ? ? ? ? J B]; subst; destruct J as [J|[]]; [now left|]. injection J as <- <- <- <-. right. rewrite <- !flat_map_app.
    assert (F : Forall (fun x => forall y, inside y [x] -> In y (flat x)) (b ++ r ++ a)) by (rewrite !Forall_app; auto). clear -F B.
    induction F as [|x l H F IH]; [inversion B as [? J|? ? ? ? ? J]; destruct J|]. cbn [flat_map]. apply in_or_app. apply (@inside_app y [x] l) in B as [B|B]; auto.
Qed.
Example demo_ok : paths_ok demo_tree.
Proof.
  intros x I. apply flat_in in I. unfold demo_tree in I. cbn [flat flat_map app In] in I.
  repeat (destruct I as [<-|I]; [first [left; reflexivity|right; exists (s "/p/a:b.yml"), 4; reflexivity|right; exists (s "/p/a:b.yml"), 6; reflexivity|right; exists (s "/p/a:b.yml"), 7; reflexivity|right; exists (s "/p/t.yml"), 1; reflexivity]|]). destruct I.
Qed.
Example demo_registers : d_src (fst (register_block_breakpoints demo_tree dbg_init)) =
  [(s "/p/a:b.yml", [Some 0%Z; None; None; None; Some 1%Z; None; Some 0%Z; Some 1%Z]); (s "/p/t.yml", [Some 0%Z; Some 1%Z])].
Proof. vm_compute. reflexivity. Qed.
Print Assumptions C56_blocks.
Print Assumptions C56_plays.
Print Assumptions C56_places.
