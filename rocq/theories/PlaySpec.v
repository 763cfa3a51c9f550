(** What Ansible does on its own, without ansibug, and the tasks and results of a log. *)
From Verif Require Import PyBase PyDict DbgTypes BpModel ThreadModel StratModel SysModel PlayModel.
Set Implicit Arguments.

(** Ansible calls a method of the base class and gets an answer. *)
Inductive asks : ansible -> bcall -> banswer -> ansible -> Prop :=
| asks_call b k r : asks (ACall b k) b r (k r)
| asks_in B b r B' k : asks B b r B' -> asks (ARun B k) b r (ARun B' k).
(** A play ends and the executor goes on; loading a playbook calls nothing. *)
Inductive goes_on : ansible -> ansible -> Prop :=
| on_return c k : goes_on (ARun (ARet c) k) (k (Ok c))
| on_raise e k : goes_on (ARun (ARaise e) k) (k (Err e))
| on_load l B : goes_on (ALoad l B) B
| on_in B B' k : goes_on B B' -> goes_on (ARun B k) (ARun B' k).
(** From [A], with these calls and answers in this order, Ansible gets to [B]. *)
Inductive plain (A : ansible) : list (bcall * banswer) -> ansible -> Prop :=
| plain_start : plain A [] A
| plain_ask log B b r C : plain A log B -> asks B b r C -> plain A (log ++ [(b, r)]) C
| plain_on log B C : plain A log B -> goes_on B C -> plain A log C.

(** EndStrategy is ansibug's own exception class: Ansible does not raise it. *)
Inductive honest : ansible -> Prop :=
| honest_ret c : honest (ARet c)
| honest_raise e : e <> EndStrategy -> honest (ARaise e)
| honest_call b k : (forall r, r <> BExn EndStrategy -> honest (k r)) -> honest (ACall b k)
| honest_run B k : honest B -> (forall r, r <> Err EndStrategy -> honest (k r)) -> honest (ARun B k)
| honest_load l B : honest B -> honest (ALoad l B).
Definition own_answers (log : list (bcall * banswer)) : Prop := forall b, ~ In (b, BExn EndStrategy) log.

(** The tasks Ansible was let run, in order. *)
Definition ran (log : list (bcall * banswer)) : list TaskStart :=
  flat_map (fun x => match fst x with BQueue a | BMeta a _ _ => [a] | _ => [] end) log.
(** What the debugger is to be told of the answers Ansible got, in order: each result, a
    result without any member for a meta task, the threads being gone after a
    refresh_inventory, the places of included tasks. *)
Definition results (log : list (bcall * banswer)) : list label :=
  flat_map (fun x => match x with
                     | (BResults, BRes l) => map (fun t => LEnd (tr_host t) (tr_result t) (tr_addr t)) l
                     | (BMeta _ _ _, BExn _) => []
                     | (BMeta a false addr, _) => [LEnd (ts_host a) (mkResult false false false false false None None None None None) addr]
                     | (BMeta _ true _, _) => [LRefresh]
                     | (BInclude _, BBlocks l _) => [LInclude l]
                     | _ => [] end) log.
(** The tasks shown to the debugger before they run, and what it was told of the answers. *)
Definition shown (ls : list label) : list TaskStart := flat_map (fun l => match l with LStart a => [a] | _ => [] end) ls.
Definition reported (ls : list label) : list label :=
  flat_map (fun l => match l with LEnd _ _ _ | LRefresh | LInclude _ => [l] | _ => [] end) ls.
(** The client asked for the playbook to be ended. *)
Definition asked_to_end (ls : list label) : Prop :=
  exists seq r, In (LReq seq r) ls /\ (r = RTerminate \/ r = RDisconnect (Some true)).
(** The shape of Ansible: plays are run one after the other and playbooks loaded between
    them; the strategy's methods are called inside a play only. *)
Inductive shape : bool -> ansible -> Prop :=
| shape_ret i c : shape i (ARet c)
| shape_raise i e : shape i (ARaise e)
| shape_call b k : (forall r, shape true (k r)) -> shape true (ACall b k)
| shape_run B k : shape true B -> (forall r, shape false (k r)) -> shape false (ARun B k)
| shape_load l B : shape false B -> shape false (ALoad l B).
(** What Ansible's strategy does not do: give a host a task while it has one, report a
    result of a host that has none, refresh the inventory while other tasks run. *)
Fixpoint innermost (p : dprog) : dprog := match p with DIn q _ => innermost q | _ => p end.
Definition breaks_rules (d : DS) : Prop :=
  match innermost (d_p d) with
  | DStart a _ => exists h task, In (h, task) (y_open (d_y d)) /\ h_uuid h = h_uuid (ts_host a)
  | DEnd h _ _ _ => forall h' task, In (h', task) (y_open (d_y d)) -> h_uuid h' <> h_uuid h
  | DExit _ => length (y_open (d_y d)) <> 1%nat
  | _ => False
  end.
