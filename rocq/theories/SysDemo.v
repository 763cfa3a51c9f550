(** A concrete session used to show that the hypotheses of the system theorems are met:
    a client sets a breakpoint and an exception filter, a play starts, one host stops
    at the breakpoint, a second host enters an include, variables are listed. *)
From Verif Require Import PyBase PyDict DbgTypes BpModel BpSpec ThreadModel ThreadSpec StratModel SysModel SysSpec.
Local Open Scope N_scope.

Definition demo_int (x : pystr) : option Z := if eqb x (s "0") then Some 0%Z else if eqb x (s "1") then Some 1%Z else None.
Definition demo_repr (h : heap) (v : val) : pystr := match v with VPrim t _ => t | VRef _ => s "<obj>" end.
Definition demo_type (h : heap) (v : val) : pystr := match v with VPrim _ t => t | VRef _ => s "obj" end.
Definition demo_tmpl (e : pystr) (tv : nat) (h : heap) : res (list obj * val) :=
  if eqb e (s "bad") then Err ValueError else if eqb e (s "[]") then Ok ([OList [] true], VRef (length h)) else Ok ([], VPrim e (s "str")).
Definition demo_args (a tv : nat) (h : heap) : res (list obj * val) :=
  match nth_error h a with Some o => Ok ([o], VRef (length h)) | None => Err KeyError end.
Definition demo_err (e : exn) : pystr := s "error".
Definition demo_parse (x : pystr) : res ReplCmd := if eqb x (s "so") then Ok (RcSetOption (s "a") (s "v")) else if eqb x (s "sh") then Ok (RcSetHostvar (s "x") (s "v"))
  else if eqb x (s "ro") then Ok (RcRemove (s "a")) else Ok (RcText x).
Notation dstep := (step demo_int demo_repr demo_type demo_tmpl demo_args demo_err demo_parse).
Notation drun := (run demo_int demo_repr demo_type demo_tmpl demo_args demo_err demo_parse).

Fixpoint exec (y : Sys) (ls : list label) : option Sys :=
  match ls with [] => Some y | l :: r => match dstep y l with Some y' => exec y' r | None => None end end.
Lemma exec_run y ls y' : exec y ls = Some y' -> drun y ls y'.
Proof.
  revert y. induction ls as [|l r IH]; cbn [exec]; intros y H.
  - injection H as <-. constructor.
  - destruct (dstep y l) as [y1|] eqn:E; [|discriminate]. eapply run_cons; [exact E|auto].
Qed.

Definition hostA := mkHost 100 (s "a").
Definition hostB := mkHost 101 (s "b").
Definition play_block := mkNode (KBlock false) 1 (s "play") (Some (s "/p.yml", 1%Z)) InBlock None.
Definition tk (uuid : N) (a : Action) (line : Z) (p : Node) := mkNode (KTask a) uuid (s "t") (Some (s "/p.yml", line)) InBlock (Some p).
Definition t1 := tk 10 ActOther 3 play_block.
Definition t2 := tk 11 ActIncludeTasks 4 play_block.
Definition inc_block := mkNode (KBlock false) 12 (s "blk") (Some (s "/i.yml", 1%Z)) InBlock (Some t2).
Definition t3 := mkNode (KTask ActOther) 13 (s "t") (Some (s "/i.yml", 1%Z)) InBlock (Some inc_block).
Definition t4 := tk 14 ActOther 5 play_block.
Definition bt (h : Host) (t : Node) := mkTS h t 0 1 None (fun _ => CBool true).
Definition okr := mkResult false false false false false None None None None None.
Definition failr := mkResult true false false false false (Some (s "boom")) None None None None.
(** 0: task vars, 1: args, 2: hostvars, 3: hostvars of a, 4: global vars, 5: a list, 6: a result. *)
Definition demo_heap : heap :=
  [ ODict [(kstr (s "hostvars"), VRef 2); (kstr (s "inventory_hostname"), VPrim (s "a") (s "str")); (kstr (s "vars"), VRef 4); (kstr (s "l"), VRef 5)] true;
    ODict [(kstr (s "a"), VPrim (s "1") (s "int"))] true;
    ODict [(kstr (s "a"), VRef 3)] false;
    ODict [(kstr (s "x"), VPrim (s "1") (s "int"))] true;
    ODict [(kstr (s "g"), VPrim (s "1") (s "int")); (mkKey false (s "7"), VPrim (s "2") (s "int"))] true;
    OList [VPrim (s "e") (s "str"); VPrim (s "f") (s "str")] true;
    ODict [(kstr (s "msg"), VPrim (s "boom") (s "str"))] true ].
Definition src_p := mkSource (Some (s "/p.yml")) 0.
Definition demo_setup : list label :=
  [ LConfig []; LReq 1 (RSetBreakpoints src_p [mkSB 3%Z None 0] false); LReq 2 (RSetException [f_error]); LReq 3 RConfigurationDone;
    LReq 4 RThreads;                       (* waits for the play *)
    LPlay; LHeap demo_heap; LUnblock; LInclude [(s "/p.yml", 3%Z, 1%Z); (s "/p.yml", 4%Z, 1%Z)] ].
(** Host a is stopped at the breakpoint. *)
Definition demo_stop : list label := demo_setup ++ [ LStart (bt hostA t1) ].
Definition after (ls : list label) : Sys := match exec sys_init ls with Some y => y | None => sys_init end.
Lemma after_run ls : exec sys_init ls <> None -> drun sys_init ls (after ls).
Proof. intros H. unfold after. destruct (exec sys_init ls) eqn:E; [|congruence]. now apply exec_run. Qed.

(** Showing that a concrete trace is well formed. *)
Ltac wf1 := match goal with |- label_wf ?l => cbn end; repeat match goal with
  | |- True => exact Logic.I
  | H : False |- _ => contradiction
  | H : _ \/ _ |- _ => destruct H
  | H : (_, _, _) = (_, _, _) |- _ => injection H; clear H; intros; subst
  | H : mkSB _ _ _ = _ |- _ => subst
  | |- regs_wf _ => unfold regs_wf; cbn
  | |- forall _, _ => intro
  | |- (_ <= _)%Z => cbn; lia end.
Ltac wf := unfold trace_wf; cbn [app]; repeat first [apply Forall_nil | apply Forall_cons; [wf1|]].

