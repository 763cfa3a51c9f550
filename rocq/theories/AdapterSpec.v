(** Specification vocabulary for the connection: histories of calls and what they returned. *)
From Verif Require Import PyBase PyDict Digits JsonModel JsonProofs MsgBase MsgTables MsgModel MsgSpec AdapterModel.

(** One call on a connection and what it returned. *)
Inductive op := Queue (v : pval) | Take (n : Z) | Recv (data : bytes) | Next.
Inductive outp := OQueue (r : res Z) | OTake (b : bytes) | ORecv | ONext (r : res (option pval)).
Definition step (c : conn) (o : op) : outp * conn :=
  match o with
  | Queue v => let (r, c1) := queue_msg c v in (OQueue r, c1)
  | Take n => let (b, c1) := data_to_send c n in (OTake b, c1)
  | Recv d => (ORecv, receive_data c d)
  | Next => let (r, c1) := next_message c in (ONext r, c1)
  end.
Fixpoint run (c : conn) (ops : list op) : list (op * outp) * conn :=
  match ops with
  | [] => ([], c)
  | o :: r => let (x, c1) := step c o in let (tr, c2) := run c1 r in ((o, x) :: tr, c2)
  end.

(** bytes handed out, in order *)
Definition handed (tr : list (op * outp)) : bytes :=
  flat_map (fun ox => match snd ox with OTake b => b | _ => [] end) tr.
(** the messages successfully queued, each with the number it got *)
Definition queued (tr : list (op * outp)) : list pval :=
  flat_map (fun ox => match ox with (Queue v, OQueue (Ok n)) => [set_seq v n] | _ => [] end) tr.
Definition queue_numbers (tr : list (op * outp)) : list Z :=
  flat_map (fun ox => match ox with (Queue _, OQueue (Ok n)) => [n] | _ => [] end) tr.
Definition queue_ok (ox : op * outp) : Prop := match ox with (Queue _, OQueue (Err _)) => False | _ => True end.
(** messages accepted by next_message *)
Definition accepted (tr : list (op * outp)) : list pval :=
  flat_map (fun ox => match snd ox with ONext (Ok (Some m)) => [m] | _ => [] end) tr.
Definition next_ok (ox : op * outp) : Prop := match snd ox with ONext (Err _) => False | _ => True end.

(** a JSON number (or the boolean Python considers equal to it) *)
Definition seq_is (v : pval) (n : Z) : Prop :=
  attr v "seq" = Some (PInt n) \/ (n = 1%Z /\ attr v "seq" = Some (PBool true)) \/ (n = 0%Z /\ attr v "seq" = Some (PBool false)).

(** any message the library can send *)
Definition sendable (v : pval) : Prop := exists c kind, msg_of c kind v \/ launch_of c v.
Fixpoint number (k : Z) (vs : list pval) : list pval :=
  match vs with [] => [] | v :: r => set_seq v k :: number (k + 1) r end.
Fixpoint zseq (k : Z) (n : nat) : list Z := match n with O => [] | S m => k :: zseq (k + 1) m end.

(** one frame: header with the decimal number of payload bytes, blank line, payload *)
Definition frame_spec (payload : bytes) : bytes :=
  s "Content-Length: " ++ digits (N.of_nat (length payload)) ++ [13%N; 10%N; 13%N; 10%N] ++ payload.
