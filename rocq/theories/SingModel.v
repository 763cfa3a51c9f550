(** AnsibleDebugger() as made by the callback (callback/debug.py:160) and by every run of the
    strategy (strategy/debug.py:1158): the metaclass of _singleton.py:12-20, called by any
    number of threads. The four places where another thread may come in between are the
    steps; each dict operation is atomic (the GIL). Objects are numbered as they are made. *)
From Coq Require Import List Bool Arith Lia.
Import ListNotations.

Inductive cphase := PMake | PStore (o : nat) | PLoad.
Inductive slabel :=
| SCheck (c : nat)             (* line 17: cls not in cls.__instances *)
| SMake (c : nat) (ok : bool)  (* line 18: super().__call__, which makes an object or raises *)
| SStore (c : nat)             (* line 18: cls.__instances[cls] = ... *)
| SReturn (c : nat).           (* line 20 *)
(** __instances[AnsibleDebugger], the objects made so far, the calls under way, and what the
    calls returned. *)
Record SG := mkSG { g_inst : option nat; g_made : nat; g_calls : list (nat * cphase); g_ret : list (nat * nat) }.
Definition sg_init : SG := mkSG None 0 [] [].
Definition drop (c : nat) (l : list (nat * cphase)) := filter (fun x => negb (Nat.eqb (fst x) c)) l.
Fixpoint phase_of (c : nat) (l : list (nat * cphase)) : option cphase :=
  match l with [] => None | (k, p) :: r => if Nat.eqb k c then Some p else phase_of c r end.

(** _singleton.py:12-20 *)
Definition sstep (g : SG) (l : slabel) : option SG :=
  match l with
  | SCheck c =>
    match phase_of c (g_calls g) with
    | Some _ => None
    | None => Some (mkSG (g_inst g) (g_made g) ((c, match g_inst g with None => PMake | Some _ => PLoad end) :: g_calls g) (g_ret g))
    end
  | SMake c ok =>
    match phase_of c (g_calls g) with
    | Some PMake =>
      Some (if ok then mkSG (g_inst g) (S (g_made g)) ((c, PStore (g_made g)) :: drop c (g_calls g)) (g_ret g)
            else mkSG (g_inst g) (g_made g) (drop c (g_calls g)) (g_ret g))
    | _ => None
    end
  | SStore c =>
    match phase_of c (g_calls g) with
    | Some (PStore o) => Some (mkSG (Some o) (g_made g) ((c, PLoad) :: drop c (g_calls g)) (g_ret g))
    | _ => None
    end
  | SReturn c =>
    match phase_of c (g_calls g), g_inst g with
    | Some PLoad, Some o => Some (mkSG (g_inst g) (g_made g) (drop c (g_calls g)) (g_ret g ++ [(c, o)]))
    | _, _ => None
    end
  end.
Inductive srun : SG -> list slabel -> SG -> Prop :=
| srun_nil g : srun g [] g
| srun_cons g l g' ls g'' : sstep g l = Some g' -> srun g' ls g'' -> srun g (l :: ls) g''.
