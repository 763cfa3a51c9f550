(** C05 and C59: the texts and bodies that are accepted, exactly. *)
From Verif Require Import PyBase PyDict JsonModel JsonSpec JsonProofs JsonGrammar MsgBase MsgModel AdapterModel Utf8.
Set Implicit Arguments.
Local Open Scope N_scope.

(** What the encoder writes is a JSON text that denotes the value encoded (with
    C05_json_exact: and no other). *)
Theorem C05_writes_json : forall v, wfj v -> json_text (dumps v) v.
Proof. intros v W. apply C05_json_exact. now apply loads_dumps. Qed.
(** C59 for whole bodies: bytes are accepted as a message iff they are the UTF-8 encoding of a
    text that is a JSON text denoting a value that is a message. *)
Theorem C59_body_exact raw m : Forall (fun b => b < 256) raw ->
  (decode_body raw = Ok m <-> exists t j, utf8_encode t = Ok raw /\ Forall scalar t /\ json_text t j /\ unpack_msg j = Ok m).
Proof.
  intros B. unfold decode_body. split.
  - destruct (utf8_decode raw) as [t|] eqn:D; [|discriminate]. cbn [bind]. destruct (loads t) as [j|] eqn:L; [|discriminate]. cbn [bind]. intros U.
    apply (C59_utf8 t B) in D as (E & S). apply C05_json_exact in L. exists t, j. auto.
  - intros (t & j & E & S & L & U). rewrite (proj2 (C59_utf8 t B) (conj E S)). cbn [bind]. apply C05_json_exact in L. now rewrite L.
Qed.

(** A text with every feature, and some that are refused. *)
Definition ex_text : list N := s " {""k"" : [ 1,-20 ,""\u00e9\ud83d\ude00\n"" ] , ""e"":{ },""k"":null}" ++ [10].
Definition ex_value : json := JObj [(s "k", JNull); (s "e", JObj [])].
Example json_text_case : json_text ex_text ex_value.
Proof. apply C05_json_exact. vm_compute. reflexivity. Qed.
Example json_text_string : json_text (s """\ud83d\ude00\ud83d""") (JStr [128512; 55357]).
Proof. apply C05_json_exact. vm_compute. reflexivity. Qed.
Example not_json : Forall (fun t => forall v, ~ json_text t v) [s "1 2"; s "{}x"; s "01"; s "[1,]"; s "{""a"":1,}"; s "'a'"; s """\x"""; s ""; s "-"; s "{1:2}"].
Proof. repeat constructor; intros v H; apply C05_json_exact in H; vm_compute in H; discriminate. Qed.
Print Assumptions C05_json_exact.
Print Assumptions C05_writes_json.
Print Assumptions C59_body_exact.
