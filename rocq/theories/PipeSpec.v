(** Specification vocabulary for C71: what the client says and is told, in bytes. *)
From Verif Require Import PyBase PyDict JsonModel JsonSpec JsonProofs JsonGrammar MsgBase MsgTables MsgModel MsgSpec AdapterModel AdapterSpec DbgTypes BpModel StratModel SysModel SysSpec WireSpec OutSpec PipeModel.
Set Implicit Arguments.
Local Open Scope Z_scope.

(** The body of a message is UTF-8 JSON text of the request [r] with number [q], other
    than disconnect (which ends the session), with lines that are not negative. *)
Definition body_asks (body : bytes) (q : Z) (r : Req) : Prop :=
  exists l j, utf8_encode l = Ok body /\ Forall scalar l /\ json_text l j /\ unreserved j /\ no_structured_extras j /\ says true j q r /\
    label_wf (LReq q r) /\ (forall t, r <> RDisconnect t).
(** The bytes are the framed requests [rs], numbered from [n]. *)
Inductive asks : Z -> bytes -> list Req -> Prop :=
| asks_none n : asks n [] []
| asks_one n body r b rs : body_asks body n r -> asks (n + 1) b rs -> asks n (frame_spec body ++ b) (r :: rs).

Section S.
Variable srcj : Source -> json.
Variable other : N -> pystr.
(** The bytes are framed messages that tell [os], numbered from [n]. *)
Inductive shows : Z -> bytes -> list Out -> Prop :=
| shows_none n : shows n [] []
| shows_one n payload j o b os : json_text payload j -> tells srcj other j n o -> shows (n + 1) b os -> shows n (frame_spec payload ++ b) (o :: os).
End S.

(** The inputs of the debuggee, in order. *)
Inductive input := IConfig (maps : list Mapping) | IReq (q : Z) (r : Req).
Definition inputs (ls : list label) : list input :=
  flat_map (fun l => match l with LReq q r => [IReq q r] | LConfig maps => [IConfig maps] | _ => [] end) ls.
Fixpoint numbered (n : Z) (rs : list Req) : list input :=
  match rs with [] => [] | r :: rest => IReq n r :: numbered (n + 1) rest end.
(** Equal, up to members of a source or breakpoint that are only copied. *)
Definition alike (a b : input) : Prop :=
  match a, b with IConfig m, IConfig m' => m = m' | IReq q r, IReq q' r' => q = q' /\ blank r = blank r' | _, _ => False end.

(** What the client sent, and how the playbook went. *)
Definition received (ls : list plabel) : bytes := flat_map (fun l => match l with QRead d => d | _ => [] end) ls.
Definition playbook (ls : list plabel) : list label := flat_map (fun l => match l with QPlaybook l => [l] | _ => [] end) ls.

(** The responses among messages, as (command, number of the request). *)
Definition replies (os : list Out) : list (Cmd * Z) := flat_map (fun o => match resp_of o with Some x => [x] | None => [] end) os.
Fixpoint answers (n : Z) (rs : list Req) : list (Cmd * Z) :=
  match rs with [] => [] | r :: rest => (cmd_of r, n) :: answers (n + 1) rest end.
(** Nothing is on its way anywhere, and no handler waits for a play. *)
Definition drained (p : Pipe) : Prop :=
  inb (p_conn p) = [] /\ p_up p = [] /\ y_recv (p_sys p) = None /\ p_sent p = length (d_out (w_dbg (y_w (p_sys p)))) /\ p_down p = [].
(** The texts and sources of a message can be written. *)
Definition writable (src_obj : Source -> pval) (srcj : Source -> json) (m : option Out) : Prop :=
  match m with Some o => Forall (Forall scalar) (out_texts o) /\ Forall (fun b => wt (UObj C_Source) (src_obj (bp_source b)) /\ enc (src_obj (bp_source b)) = Ok (srcj (bp_source b))) (out_bps o) | None => True end.
