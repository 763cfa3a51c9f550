From Verif Require Import PyBase PyDict DbgTypes BpModel ThreadModel StratModel SysModel PlayModel PlaySpec.
Ltac csplit := repeat match goal with |- _ /\ _ => split end.
Set Implicit Arguments.
Local Open Scope N_scope.

(** Where the program with the plugin is, in terms of Ansible's own position. *)
Inductive ending : dprog -> ansible -> Prop :=
| ending_same A : ending (interpose A) A
| ending_end h r addr K B : ending (K (Ok tt)) B -> ending (DEnd h r addr K) B.
Definition meta_rest (a : TaskStart) (refresh : bool) (addr : nat) (k : banswer -> ansible) (r : banswer) : dprog :=
  match r with
  | BExn e => interpose (k (BExn e))
  | _ => if refresh
         then DExit (fun o => match o with Ok _ => interpose (k r) | Err e => interpose (k (BExn e)) end)
         else DEnd (ts_host a) empty_result addr (fun o => match o with Ok _ => interpose (k r) | Err e => interpose (k (BExn e)) end)
  end.
Inductive sim : dprog -> ansible -> Prop :=
| sim_ending p A : ending p A -> sim p A
| sim_queue a k : sim (DBase (BQueue a) (fun r => interpose (k r))) (ACall (BQueue a) k)
| sim_meta a refresh addr k : sim (DBase (BMeta a refresh addr) (meta_rest a refresh addr k)) (ACall (BMeta a refresh addr) k)
| sim_exit K B : K (Ok tt) = interpose B -> sim (DExit K) B
| sim_reg l K B : K (Ok tt) = interpose B -> sim (DReg l K) B
| sim_in p B k : sim p B -> sim (DIn p (fun r => interpose (k r))) (ARun B k).
Lemma sim_same A : sim (interpose A) A.
Proof. apply sim_ending, ending_same. Qed.
Lemma ending_ends l K B : ending (K (Ok tt)) B -> ending (ends l K) B.
Proof. intros H. induction l as [|x l IH]; cbn [ends]; auto. apply ending_end. exact IH. Qed.

Lemma interpose_ret A c : interpose A = DRet c -> A = ARet c.
Proof. destruct A as [x|e|[] k|B k|l B]; cbn; intros H; try discriminate. now injection H as ->. Qed.
Lemma interpose_raise A c : interpose A = DRaise c -> A = ARaise c.
Proof. destruct A as [x|e|[] k|B k|l B]; cbn; intros H; try discriminate. now injection H as ->. Qed.
Lemma sim_ret c B : sim (DRet c) B -> B = ARet c.
Proof. inversion 1 as [p A E| | | | |]; subst. inversion E; subst. now apply interpose_ret. Qed.
Lemma sim_raise c B : sim (DRaise c) B -> B = ARaise c.
Proof. inversion 1 as [p A E| | | | |]; subst. inversion E; subst. now apply interpose_raise. Qed.

(** The innermost position; the task shown and not yet run; the results to be shown. *)
Notation inner := innermost.
Definition about (p : dprog) (ph : phase) : list TaskStart :=
  match inner p with
  | DStart a _ => match ph with PWaitStart _ => [a] | _ => [] end
  | DBase (BQueue a) _ | DBase (BMeta a _ _) _ => [a]
  | _ => []
  end.
Fixpoint todo_in (p : dprog) : list label :=
  match p with
  | DEnd h r addr K => LEnd h r addr :: todo_in (K (Ok tt))
  | DExit K => LRefresh :: todo_in (K (Ok tt))
  | DReg l K => LInclude l :: todo_in (K (Ok tt))
  | _ => [] end.
Definition todo (p : dprog) (ph : phase) : list label :=
  match ph with PWaitEnd _ _ => tl (todo_in (inner p)) | _ => todo_in (inner p) end.
Definition position_ok (p : dprog) (ph : phase) : Prop :=
  match ph with
  | PWaitStart _ => exists a k, inner p = DStart a k
  | PWaitEnd _ _ => exists h r addr k, inner p = DEnd h r addr k
  | _ => True
  end.
Lemma todo_interpose A : todo_in (interpose A) = [].
Proof. destruct A as [x|e|[] k|B k|l B]; reflexivity. Qed.
Lemma todo_ends l K : todo_in (K (Ok tt)) = [] -> todo_in (ends l K) = map (fun t => LEnd (tr_host t) (tr_result t) (tr_addr t)) l.
Proof. intros H. induction l as [|x l IH]; cbn [ends todo_in map]; auto. now rewrite IH. Qed.
Lemma inner_interpose A : inner (interpose A) = interpose A.
Proof. destruct A as [x|e|[] k|B k|l B]; reflexivity. Qed.
Lemma inner_ends l K : inner (K (Ok tt)) = K (Ok tt) -> inner (ends l K) = ends l K.
Proof. destruct l; cbn; auto. Qed.

(** [inner] and the steps. *)
Lemma ran_app a b : ran (a ++ b) = ran a ++ ran b. Proof. apply flat_map_app. Qed.
Lemma results_app a b : results (a ++ b) = results a ++ results b. Proof. apply flat_map_app. Qed.
Lemma shown_app a b : shown (a ++ b) = shown a ++ shown b. Proof. apply flat_map_app. Qed.
Lemma reported_app a b : reported (a ++ b) = reported a ++ reported b. Proof. apply flat_map_app. Qed.

Section P.
Variable py_int : pystr -> option Z.
Variable py_repr : heap -> val -> pystr.
Variable type_name : heap -> val -> pystr.
Variable tmpl : pystr -> nat -> heap -> res (list obj * val).
Variable tmpl_args : nat -> nat -> heap -> res (list obj * val).
Variable err_text : exn -> pystr.
Variable parse_repl : pystr -> res ReplCmd.
Notation step := (step py_int py_repr type_name tmpl tmpl_args err_text parse_repl).
Notation dstep := (dstep py_int py_repr type_name tmpl tmpl_args err_text parse_repl).
Notation druns := (druns py_int py_repr type_name tmpl tmpl_args err_text parse_repl).
Notation run := (run py_int py_repr type_name tmpl tmpl_args err_text parse_repl).

Lemma outside_phase y l y' : outside l = true -> step y l = Some y' -> y_phase y' = y_phase y.
Proof.
  intros O H. destruct l; try discriminate O; cbn [SysModel.step] in H.
  - destruct (y_recv y); [discriminate|]. destruct (_ && _); injection H as <-; reflexivity.
  - destruct (y_recv y) as [[? ?]|]; [|discriminate]. destruct (has_strategy y); [|discriminate]. injection H as <-; reflexivity.
  - destruct (y_recv y); [discriminate|]. injection H as <-; reflexivity.
  - destruct (y_recv y); [discriminate|]. injection H as <-; reflexivity.
  - injection H as <-; reflexivity.
Qed.
(** The phases a playbook's own step leads to. *)
Lemma start_phase y a y' : step y (LStart a) = Some y' ->
  y_phase y' = PRun \/ (exists t, y_phase y' = PWaitStart t) \/ exists e, y_phase y' = PDone e.
Proof.
  cbn [SysModel.step]. destruct (y_phase y); try discriminate. destruct (host_open _ _); [discriminate|].
  destruct (start_task a (y_w y)) as ((w', [| |e]), [t|]); intros H; try discriminate; injection H as <-; cbn; eauto.
Qed.
Lemma end_phase y h r ad y' : step y (LEnd h r ad) = Some y' ->
  y_phase y' = PRun \/ (exists t n, y_phase y' = PWaitEnd t n) \/ exists e, y_phase y' = PDone e.
Proof.
  cbn [SysModel.step]. destruct (y_phase y); try discriminate. destruct (find _ _) as [[? task]|]; [|discriminate].
  destruct (end_task h task r ad (y_w y)) as ((w', [| |e]), [t|]); intros H; try discriminate.
  - destruct (end_finish t task w') as (w2, [| |e]); try discriminate; injection H as <-; cbn; eauto.
  - injection H as <-; cbn; eauto 6.
  - injection H as <-; cbn; eauto.
  - injection H as <-; cbn; eauto.
Qed.
Lemma wake_phase y y' : step y LWake = Some y' -> y_phase y' = PRun \/ exists e, y_phase y' = PDone e.
Proof.
  cbn [SysModel.step]. destruct (y_phase y) as [| |t|t n|e]; try discriminate; destruct (waiting _ _); try discriminate.
  - destruct (start_resume t (y_w y)); intros H; try discriminate; injection H as <-; cbn; eauto.
  - destruct (end_finish t n (y_w y)) as (w2, [| |e]); intros H; try discriminate; injection H as <-; cbn; eauto.
Qed.
Lemma include_phase y l y' : step y (LInclude l) = Some y' -> y_phase y' = PRun \/ exists e, y_phase y' = PDone e.
Proof.
  cbn [SysModel.step]. destruct (y_phase y); try discriminate. destruct (register_all _ _) as (d, [?|e]); intros H; injection H as <-; cbn; eauto.
Qed.
Lemma refresh_phase y y' : step y LRefresh = Some y' -> y_phase y' = PRun.
Proof. cbn [SysModel.step]. destruct (y_phase y); try discriminate. destruct (y_open y) as [|? [|]]; intros H; try discriminate; injection H as <-; reflexivity. Qed.
(** After the debugger has ended the play, it stays so. *)
Lemma done_stays y l y' e : step y l = Some y' -> y_phase y = PDone e -> y_phase y' = PDone e.
Proof.
  intros H E. destruct l; cbn [SysModel.step] in H; rewrite E in H; try discriminate.
  - destruct (y_recv y); [discriminate|]. destruct (_ && _); injection H as <-; cbn; auto.
  - destruct (y_recv y) as [[? ?]|]; [|discriminate]. destruct (has_strategy y); [|discriminate]. injection H as <-; cbn; auto.
  - destruct (y_recv y); [discriminate|]. injection H as <-; cbn; auto.
  - destruct (y_recv y); [discriminate|]. injection H as <-; cbn; auto.
  - injection H as <-; cbn; auto.
Qed.

(** The phases a step of the playbook's thread can lead to, if it does not raise. *)
Definition lands (l : label) (ph : phase) : Prop :=
  match l with
  | LStart _ => ph = PRun \/ exists t, ph = PWaitStart t
  | LEnd _ _ _ => ph = PRun \/ exists t n, ph = PWaitEnd t n
  | LWake | LRefresh | LInclude _ | LPlay => ph = PRun
  | LPlayEnd | LLoad _ => ph = PIdle
  | _ => False
  end.
Lemma next_lands y p l y' : next_label p (y_phase y) = Some l -> step y l = Some y' -> lands l (y_phase y') \/ exists e, y_phase y' = PDone e.
Proof.
  intros N H.
  assert (K : match l with LStart _ | LEnd _ _ _ | LWake | LRefresh | LInclude _ | LPlay | LPlayEnd | LLoad _ => True | _ => False end).
  { clear H. induction p; cbn [next_label] in N; try (destruct (y_phase y); try discriminate N; injection N as <-; exact Logic.I); try discriminate N.
    destruct p; try (apply IHp; exact N); destruct (y_phase y); try discriminate N; injection N as <-; exact Logic.I. }
  destruct l; try contradiction; cbn [lands].
  - left. cbn [SysModel.step] in H. destruct (y_phase y); try discriminate. injection H as <-. reflexivity.
  - destruct (start_phase _ _ H) as [X|[X|X]]; auto.
  - destruct (end_phase _ _ _ _ H) as [X|[X|X]]; auto.
  - apply wake_phase in H. exact H.
  - left. now apply refresh_phase in H.
  - apply include_phase in H. exact H.
  - left. cbn [SysModel.step] in H. destruct (y_phase y); try discriminate. injection H as <-. reflexivity.
  - left. cbn [SysModel.step] in H. destruct (y_phase y); try discriminate. injection H as <-. reflexivity.
Qed.
End P.

(** One step of the playbook's thread in the debugger. *)
Definition hook_ok (p : dprog) (ph : phase) (l : label) (ph' : phase) (B : ansible) : Prop :=
  exists B', (B' = B \/ goes_on B B') /\ honest B' /\ sim (after_label p ph') B' /\ position_ok (after_label p ph') ph' /\
    about p ph ++ shown [l] = about (after_label p ph') ph' /\ todo p ph = reported [l] ++ todo (after_label p ph') ph'.
Lemma about_ending p B ph : ending p B -> (forall t, ph <> PWaitStart t) -> about p ph = [].
Proof.
  intros H N. unfold about. destruct H as [A|]; [|reflexivity]. rewrite inner_interpose.
  destruct A as [x|e|[] k|B k|l B]; try reflexivity; destruct ph; try reflexivity; exfalso; eapply N; reflexivity.
Qed.
Lemma inner_ending p B : ending p B -> inner p = p.
Proof. destruct 1; [apply inner_interpose|reflexivity]. Qed.
Ltac pos := first [exact Logic.I | eexists; eexists; reflexivity | eexists; eexists; eexists; eexists; reflexivity].
Lemma hook_ending p B ph l ph' : ending p B -> honest B -> next_label p ph = Some l -> lands l ph' -> hook_ok p ph l ph' B.
Proof.
  intros E H N L. destruct E as [A|h r ad K B E].
  - destruct A as [x|e|[a|a rf ad|n|] k|B k|ls B]; cbn [interpose next_label] in N; try discriminate.
    + destruct ph; try discriminate; injection N as <-; cbn in L.
      * exists (ACall (BQueue a) k). destruct L as [->|(t & ->)]; cbn; csplit; auto; try exact Logic.I; try apply sim_queue; try apply (sim_same (ACall (BQueue a) k)); pos.
      * subst ph'. exists (ACall (BQueue a) k). cbn. csplit; auto; try exact Logic.I; try apply sim_queue.
    + destruct ph; try discriminate; injection N as <-; cbn in L.
      * exists (ACall (BMeta a rf ad) k). destruct L as [->|(t & ->)]; cbn; csplit; auto; try exact Logic.I; try apply sim_meta; try apply (sim_same (ACall (BMeta a rf ad) k)); pos.
      * subst ph'. exists (ACall (BMeta a rf ad) k). cbn. csplit; auto; try exact Logic.I; try apply sim_meta.
    + destruct ph; try discriminate. injection N as <-. cbn in L. subst ph'. exists (ARun B k). cbn. csplit; auto; try exact Logic.I.
      * apply sim_in, sim_same.
      * unfold about. cbn [inner]. symmetry. apply (@about_ending (interpose B) B PRun); [apply ending_same|discriminate].
      * unfold todo. cbn [inner]. now rewrite inner_interpose, todo_interpose.
    + destruct ph; try discriminate. injection N as <-. cbn in L. subst ph'. exists B. inversion H; subst. cbn. csplit; auto; try exact Logic.I.
      * right. apply on_load.
      * apply sim_same.
      * symmetry. apply (@about_ending (interpose B) B PIdle); [apply ending_same|discriminate].
      * unfold todo. now rewrite inner_interpose, todo_interpose.
  - cbn [next_label] in N. pose proof (inner_ending E) as IE.
    destruct ph; try discriminate; injection N as <-; cbn in L.
    + exists B. destruct L as [->|(t & n & ->)]; cbn [after_label hook_result]; csplit; auto; try exact Logic.I.
      * now apply sim_ending.
      * cbn. symmetry. apply (about_ending E). discriminate.
      * unfold todo. cbn. now rewrite IE.
      * apply sim_ending. now apply ending_end.
      * pos.
    + subst ph'. exists B. cbn [after_label hook_result]. csplit; auto; try exact Logic.I.
      * now apply sim_ending.
      * cbn. symmetry. apply (about_ending E). discriminate.
      * unfold todo. cbn. now rewrite IE.
Qed.
Lemma hook_sim p B : sim p B -> forall ph l ph', honest B -> next_label p ph = Some l -> lands l ph' -> hook_ok p ph l ph' B.
Proof.
  induction 1 as [p A E|a k|a rf ad k|K B E|ls K B E|p B k S IH]; intros ph l ph' H N L.
  - now apply hook_ending.
  - discriminate.
  - discriminate.
  - cbn [next_label] in N. destruct ph; try discriminate. injection N as <-. cbn in L. subst ph'. exists B. cbn [after_label hook_result]. rewrite E. csplit; auto; try exact Logic.I.
    + apply sim_same.
    + cbn. symmetry. apply (@about_ending (interpose B) B PRun); [apply ending_same|discriminate].
    + unfold todo. cbn. now rewrite E, inner_interpose, !todo_interpose.
  - cbn [next_label] in N. destruct ph; try discriminate. injection N as <-. cbn in L. subst ph'. exists B. cbn [after_label hook_result]. rewrite E. csplit; auto; try exact Logic.I.
    + apply sim_same.
    + cbn. symmetry. apply (@about_ending (interpose B) B PRun); [apply ending_same|discriminate].
    + unfold todo. cbn. now rewrite E, inner_interpose, !todo_interpose.
  - inversion H as [| | |? ? HB HK|]; subst.
    assert (DEC : (exists c, p = DRet c) \/ (exists e, p = DRaise e) \/ (next_label (DIn p (fun r => interpose (k r))) ph = next_label p ph /\ forall q, after_label (DIn p (fun r => interpose (k r))) q = DIn (after_label p q) (fun r => interpose (k r)))).
    { destruct p; eauto; right; right; split; auto. }
    destruct DEC as [(c & ->)|[(e & ->)|(D1 & D2)]].
    + apply sim_ret in S. subst B. cbn in N. destruct ph; try discriminate. injection N as <-. cbn in L. subst ph'.
      exists (k (Ok c)). cbn. csplit; auto; try exact Logic.I.
      * right. apply on_return.
      * apply HK. discriminate.
      * apply sim_same.
      * symmetry. apply (@about_ending (interpose (k (Ok c))) (k (Ok c)) PIdle); [apply ending_same|discriminate].
      * unfold todo. now rewrite inner_interpose, todo_interpose.
    + apply sim_raise in S. subst B. cbn in N. destruct ph; try discriminate. injection N as <-. cbn in L. subst ph'.
      assert (NE : e <> EndStrategy) by (inversion HB; auto).
      assert (RR : run_result (Err e) = Err e) by (destruct e; try reflexivity; now elim NE).
      exists (k (Err e)). cbn [after_label]. rewrite RR. cbn. csplit; auto; try exact Logic.I.
      * right. apply on_raise.
      * apply HK. congruence.
      * apply sim_same.
      * symmetry. apply (@about_ending (interpose (k (Err e))) (k (Err e)) PIdle); [apply ending_same|discriminate].
      * unfold todo. now rewrite inner_interpose, todo_interpose.
    + rewrite D1 in N. destruct (IH ph l ph' HB N L) as (B' & G & HB' & S' & P' & A' & T'). exists (ARun B' k). rewrite D2. csplit; auto; try exact Logic.I.
      * destruct G as [->|G]; [now left|right]. now apply on_in.
      * constructor; auto.
      * now apply sim_in.
Qed.
(** One call of a base class method. *)
Definition base_ok (p : dprog) (b : bcall) (r : banswer) (q : dprog) (B : ansible) : Prop :=
  exists C, asks B b r C /\ honest C /\ sim q C /\
    forall ph, (forall t, ph <> PWaitStart t) -> (forall t n, ph <> PWaitEnd t n) ->
      about p ph = ran [(b, r)] ++ about q ph /\ todo p ph = [] /\ todo q ph = results [(b, r)].
Lemma about_sim_ending p B : ending p B -> forall ph, (forall t, ph <> PWaitStart t) -> about p ph = [].
Proof. intros E ph N. eapply about_ending; eauto. Qed.
Lemma todo_run p ph : (forall t n, ph <> PWaitEnd t n) -> todo p ph = todo_in (inner p).
Proof. intros N. destruct ph; auto. exfalso. eapply N. reflexivity. Qed.
Lemma base_sim p B : sim p B -> forall r b q, r <> BExn EndStrategy -> honest B -> base_step p r = Some (b, q) -> base_ok p b r q B.
Proof.
  induction 1 as [p A E|a k|a rf ad k|K B E|ls K B E|p B k S IH]; intros r b q NR H N.
  - destruct E as [A|]; [|discriminate]. destruct A as [x|e|[a|a rf ad|n|] k|B k|ls B]; try discriminate; inversion H as [| |? ? HK| |]; subst; cbn [interpose base_step] in N; injection N as <- <-.
    + exists (k r). csplit; auto; try exact Logic.I; [apply asks_call|destruct r; try apply sim_same; now apply sim_reg|].
      intros ph N1 N2. rewrite !todo_run by auto. destruct r; cbn; rewrite ?inner_interpose, ?todo_interpose; csplit; auto; try exact Logic.I; symmetry; eapply (about_ending (ending_same _)); auto.
    + exists (k r). csplit; auto; try exact Logic.I; [apply asks_call| |].
      { destruct r; try apply sim_same. apply sim_ending, ending_ends, ending_same. }
      intros ph N1 N2. rewrite !todo_run by auto. destruct r as [| | |l|]; cbn [ran results flat_map fst app]; try (rewrite ?inner_interpose, ?todo_interpose; csplit; auto; try exact Logic.I; symmetry; eapply (about_ending (ending_same _)); auto).
      rewrite inner_ends by apply inner_interpose. rewrite todo_ends by apply todo_interpose. rewrite app_nil_r. csplit; auto.
      symmetry. apply about_sim_ending with (B := k (BRes l)); auto. apply ending_ends, ending_same.
  - cbn in N. injection N as <- <-. inversion H as [| |? ? HK| |]; subst. exists (k r). csplit; auto; [apply asks_call|apply sim_same|].
    intros ph N1 N2. rewrite !todo_run by auto. rewrite inner_interpose, todo_interpose. csplit; auto. cbn. f_equal. symmetry. eapply (about_ending (ending_same _)); auto.
  - cbn [base_step] in N. injection N as <- <-. inversion H as [| |? ? HK| |]; subst. exists (k r). csplit; auto; [apply asks_call| |].
    { destruct r; cbn [meta_rest]; try apply sim_same; destruct rf; try (now apply sim_exit); apply sim_ending, ending_end, ending_same. }
    intros ph N1 N2. rewrite !todo_run by auto.
    destruct r; cbn [meta_rest]; try (destruct rf; cbn; rewrite ?todo_interpose; csplit; auto).
    all: rewrite ?inner_interpose, ?todo_interpose; auto.
    all: cbn; f_equal; symmetry; eapply (about_ending (ending_same _)); auto.
  - discriminate.
  - discriminate.
  - inversion H as [| | |? ? HB HK|]; subst. cbn [base_step] in N. destruct (base_step p r) as [(b0, q0)|] eqn:E; [|discriminate]. injection N as <- <-.
    destruct (IH r b0 q0 NR HB E) as (C & A1 & A2 & A3 & A4). exists (ARun C k). csplit; auto.
    + now apply asks_in.
    + constructor; auto.
    + now apply sim_in.
Qed.
Lemma base_inner p r b q : base_step p r = Some (b, q) -> exists k, inner p = DBase b k.
Proof.
  revert q. induction p as [| | | | | |b0 k0 _|body _ k0 _|body IH k0 _|]; intros q X; try discriminate.
  - cbn in X. injection X as <- <-. cbn. eauto.
  - cbn [base_step] in X. destruct (base_step body r) as [(b1, q1)|]; [|discriminate]. injection X as <- <-. cbn [inner]. eauto.
Qed.

Section P2.
Variable py_int : pystr -> option Z.
Variable py_repr : heap -> val -> pystr.
Variable type_name : heap -> val -> pystr.
Variable tmpl : pystr -> nat -> heap -> res (list obj * val).
Variable tmpl_args : nat -> nat -> heap -> res (list obj * val).
Variable err_text : exn -> pystr.
Variable parse_repl : pystr -> res ReplCmd.
Notation step := (step py_int py_repr type_name tmpl tmpl_args err_text parse_repl).
Notation dstep := (dstep py_int py_repr type_name tmpl tmpl_args err_text parse_repl).
Notation druns := (druns py_int py_repr type_name tmpl tmpl_args err_text parse_repl).
Notation run := (run py_int py_repr type_name tmpl tmpl_args err_text parse_repl).

Definition not_done (d : DS) : Prop := forall e, y_phase (d_y d) <> PDone e.
Definition PInv (A : ansible) (d : DS) : Prop :=
  exists B, plain A (d_log d) B /\ honest B /\ sim (d_p d) B /\ position_ok (d_p d) (y_phase (d_y d)) /\
    shown (d_ls d) = ran (d_log d) ++ about (d_p d) (y_phase (d_y d)) /\
    results (d_log d) = reported (d_ls d) ++ todo (d_p d) (y_phase (d_y d)).

Lemma dstep_not_done d x d' : dstep d x = Some d' -> not_done d' -> not_done d.
Proof.
  intros H N e E. apply (N e). destruct x as [l| | |r]; cbn [PlayModel.dstep] in H.
  - destruct (outside l); [|discriminate]. destruct (step (d_y d) l) eqn:S; [|discriminate]. injection H as <-. cbn. eapply done_stays; eauto.
  - destruct (next_label _ _); [|discriminate]. destruct (step (d_y d) l) eqn:S; [|discriminate]. injection H as <-. cbn. eapply done_stays; eauto.
  - destruct (leaves _ _); [|discriminate]. injection H as <-. exact E.
  - destruct (base_step _ _) as [(b, p)|]; [|discriminate]. injection H as <-. exact E.
Qed.
Lemma dstep_log d x d' : dstep d x = Some d' -> own_answers (d_log d') -> own_answers (d_log d).
Proof.
  intros H N b E. apply (N b). destruct x as [l| | |r]; cbn [PlayModel.dstep] in H.
  - destruct (outside l); [|discriminate]. destruct (step (d_y d) l) eqn:S; [|discriminate]. injection H as <-. exact E.
  - destruct (next_label _ _); [|discriminate]. destruct (step (d_y d) l) eqn:S; [|discriminate]. injection H as <-. exact E.
  - destruct (leaves _ _); [|discriminate]. injection H as <-. exact E.
  - destruct (base_step _ _) as [(b0, p)|]; [|discriminate]. injection H as <-. apply in_or_app. now left.
Qed.
Lemma outside_shows l : outside l = true -> shown [l] = [] /\ reported [l] = [].
Proof. destruct l; try discriminate; auto. Qed.
Lemma dstep_pinv A d x d' : dstep d x = Some d' -> own_answers (d_log d') -> not_done d' -> PInv A d -> PInv A d'.
Proof.
  intros H OWN ND (B & PL & HB & S & POS & SH & RE). pose proof (dstep_not_done _ _ H ND) as ND0.
  destruct x as [l| | |r]; cbn [PlayModel.dstep] in H.
  - destruct (outside l) eqn:O; [|discriminate]. destruct (step (d_y d) l) eqn:E; [|discriminate]. injection H as <-.
    exists B. cbn [d_log d_p d_y d_ls]. rewrite (@outside_phase py_int py_repr type_name tmpl tmpl_args err_text parse_repl _ _ _ O E). destruct (outside_shows l O) as (O1 & O2).
    rewrite shown_app, reported_app, O1, O2, !app_nil_r. csplit; auto.
  - destruct (next_label (d_p d) (y_phase (d_y d))) as [l|] eqn:N; [|discriminate]. destruct (step (d_y d) l) as [y'|] eqn:E; [|discriminate]. injection H as <-.
    destruct (@next_lands py_int py_repr type_name tmpl tmpl_args err_text parse_repl _ _ _ _ N E) as [L|(e & X)]; [|exfalso; eapply ND; exact X].
    destruct (@hook_sim _ _ S _ _ _ HB N L) as (B' & G & HB' & S' & P' & A' & T').
    exists B'. cbn [d_log d_p d_y d_ls]. csplit; auto.
    + destruct G as [->|G]; auto. eapply plain_on; eauto.
    + rewrite shown_app, SH, <- app_assoc. now rewrite A'.
    + rewrite reported_app, <- app_assoc. now rewrite <- T'.
  - destruct (leaves (d_p d) (y_phase (d_y d))) eqn:L; [|discriminate]. exfalso. unfold leaves in L.
    destruct (d_p d) as [| | | | | | | |p k|]; try discriminate. destruct p; try discriminate. destruct (y_phase (d_y d)) eqn:Q; try discriminate. eapply ND0; eauto.
  - destruct (base_step (d_p d) r) as [(b, q)|] eqn:E; [|discriminate]. injection H as <-.
    assert (NR : r <> BExn EndStrategy). { intros ->. apply (OWN b). cbn. apply in_or_app. right. now left. }
    destruct (@base_sim _ _ S r b q NR HB E) as (C & A1 & A2 & A3 & A4). destruct (base_inner _ _ E) as (k & IN).
    destruct (A4 (y_phase (d_y d))) as (X1 & X2 & X3).
    { intros t Q. unfold position_ok in POS. rewrite Q in POS. destruct POS as (? & ? & POS). congruence. }
    { intros t n Q. unfold position_ok in POS. rewrite Q in POS. destruct POS as (? & ? & ? & ? & POS). congruence. }
    exists C. cbn [d_log d_p d_y d_ls]. csplit; auto.
    + eapply plain_ask; eauto.
    + unfold position_ok in *. destruct (y_phase (d_y d)); auto.
      * destruct POS as (? & ? & POS). congruence.
      * destruct POS as (? & ? & ? & ? & POS). congruence.
    + rewrite ran_app, <- app_assoc, <- X1. exact SH.
    + rewrite results_app, X3. f_equal. rewrite X2, app_nil_r in RE. exact RE.
Qed.
Lemma begin_pinv A : honest A -> PInv A (begin A).
Proof.
  intros H. exists A. cbn. csplit; auto; try apply sim_same; try apply plain_start.
  - symmetry. eapply (about_ending (ending_same A)). discriminate.
  - unfold todo. cbn. now rewrite inner_interpose, todo_interpose.
Qed.
Lemma druns_pinv A xs d : honest A -> druns (begin A) xs d -> own_answers (d_log d) -> not_done d -> PInv A d.
Proof.
  intros HA R. remember (begin A) as d0 eqn:D0. induction R as [d|d xs d1 x d2 R IH E]; intros OWN ND; subst.
  - now apply begin_pinv.
  - eapply dstep_pinv; eauto. apply IH; auto.
    + eapply dstep_log; eauto.
    + eapply dstep_not_done; eauto.
Qed.
(** The debugger's own history is one of SysModel. *)
Lemma run_snoc y ls y1 l y2 : run y ls y1 -> step y1 l = Some y2 -> run y (ls ++ [l]) y2.
Proof. intros R E. induction R as [y|y l0 y3 ls y4 S R IH]; cbn; [eapply run_cons; [exact E|constructor]|eapply run_cons; eauto]. Qed.
Lemma druns_run A xs d : druns (begin A) xs d -> run sys_init (d_ls d) (d_y d).
Proof.
  intros R. remember (begin A) as d0 eqn:D0. induction R as [d|d xs d1 x d2 R IH E]; subst; [constructor|]. specialize (IH eq_refl).
  destruct x as [l| | |r]; cbn [PlayModel.dstep] in E.
  - destruct (outside l); [|discriminate]. destruct (step (d_y d1) l) eqn:S; [|discriminate]. injection E as <-. cbn. eapply run_snoc; eauto.
  - destruct (next_label _ _); [|discriminate]. destruct (step (d_y d1) l) eqn:S; [|discriminate]. injection E as <-. cbn. eapply run_snoc; eauto.
  - destruct (leaves _ _); [|discriminate]. injection E as <-. exact IH.
  - destruct (base_step _ _) as [(b0, p)|]; [|discriminate]. injection E as <-. exact IH.
Qed.
End P2.
