(** UTF-8 as Python's strict codec (AdapterModel): encoding and decoding are inverse. *)
From Verif Require Import PyBase PyDict Digits JsonModel JsonProofs MsgBase MsgTables MsgModel AdapterModel.
Set Implicit Arguments.
Local Open Scope N_scope.
Ltac Zify.zify_post_hook ::= Z.to_euclidean_division_equations.

Lemma enc1_ok c : scalar c -> exists l, utf8_enc1 c = Ok l /\ l <> [] /\ Forall (fun b => b < 256) l.
Proof.
  intros H. unfold utf8_enc1, scalar in *.
  destruct (N.ltb_spec c 128); [eexists; split; [reflexivity|split; [discriminate|repeat constructor; lia]]|].
  destruct (N.ltb_spec c 2048); [eexists; split; [reflexivity|split; [discriminate|repeat constructor; lia]]|].
  destruct (N.leb_spec 55296 c); cbn [andb].
  - destruct (N.ltb_spec c 57344); [exfalso; lia|].
    destruct (N.ltb_spec c 65536); (eexists; split; [reflexivity|split; [discriminate|repeat constructor; lia]]).
  - destruct (N.ltb_spec c 65536); (eexists; split; [reflexivity|split; [discriminate|repeat constructor; lia]]).
Qed.
Ltac dec_if := match goal with |- context [if ?b then _ else _] => destruct b eqn:?; try (exfalso; unfold cont in *; lia) end.
Lemma dec1_ok c l f r : scalar c -> utf8_enc1 c = Ok l -> utf8_dec (S f) (l ++ r) = bind (utf8_dec f r) (fun x => Ok (c :: x)).
Proof.
  intros H. unfold utf8_enc1, scalar in *.
  destruct (N.ltb_spec c 128).
  { intros E; injection E as <-. cbn [app utf8_dec]. dec_if. reflexivity. }
  destruct (N.ltb_spec c 2048).
  { intros E; injection E as <-. cbn [app utf8_dec]. repeat dec_if. f_equal. f_equal. replace ((192 + c / 64 - 192) * 64 + (128 + c mod 64 - 128)) with c by lia. reflexivity. }
  destruct (N.leb_spec 55296 c); cbn [andb].
  - destruct (N.ltb_spec c 57344); [exfalso; lia|]. destruct (N.ltb_spec c 65536); intros E; injection E as <-; cbn [app utf8_dec].
    + replace ((224 + c / 4096 - 224) * 4096 + (128 + c / 64 mod 64 - 128) * 64 + (128 + c mod 64 - 128)) with c by lia. repeat dec_if. reflexivity.
    + replace ((240 + c / 262144 - 240) * 262144 + (128 + c / 4096 mod 64 - 128) * 4096 + (128 + c / 64 mod 64 - 128) * 64 + (128 + c mod 64 - 128)) with c by lia. repeat dec_if. reflexivity.
  - destruct (N.ltb_spec c 65536); [|exfalso; lia]. intros E; injection E as <-; cbn [app utf8_dec].
    replace ((224 + c / 4096 - 224) * 4096 + (128 + c / 64 mod 64 - 128) * 64 + (128 + c mod 64 - 128)) with c by lia. repeat dec_if. reflexivity.
Qed.
Lemma encode_cons c t : utf8_encode (c :: t) = bind (utf8_enc1 c) (fun l => bind (utf8_encode t) (fun r => Ok (l ++ r))).
Proof. unfold utf8_encode. rewrite mapM_cons. destruct (utf8_enc1 c); cbn [bind]; auto. destruct (mapM utf8_enc1 t); reflexivity. Qed.
Lemma enc_dec t : Forall scalar t -> exists b, utf8_encode t = Ok b /\ Forall (fun x => x < 256) b /\ forall f, (length b <= f)%nat -> utf8_dec f b = Ok t.
Proof.
  induction 1 as [|c t S _ (b & E & B & D)]; [exists []; split; [reflexivity|]; split; [constructor|]; intros [|f] _; reflexivity|].
  destruct (enc1_ok S) as (l & E1 & NE & B1). exists (l ++ b). rewrite encode_cons, E1. cbn [bind]. rewrite E. split; [reflexivity|]. split; [now apply Forall_app|].
  intros f L. destruct l as [|x l]; [congruence|]. cbn [app length] in L. destruct f as [|f]; [lia|].
  rewrite (@dec1_ok c (x :: l) f b S E1). rewrite D; [reflexivity|]. rewrite app_length in L. lia.
Qed.
Theorem utf8_encode_decode t : Forall scalar t -> exists b, utf8_encode t = Ok b /\ Forall (fun x => x < 256) b /\ utf8_decode b = Ok t.
Proof. intros H. destruct (enc_dec H) as (b & E & B & D). exists b. split; [exact E|]. split; [exact B|]. now apply D. Qed.

Lemma dec_enc f : forall l t, Forall (fun x => x < 256) l -> utf8_dec f l = Ok t -> utf8_encode t = Ok l /\ Forall scalar t.
Proof.
  induction f as [|f IH]; intros l t B; destruct l as [|a l1]; cbn [utf8_dec]; try discriminate; try (intros E; injection E as <-; split; [reflexivity|constructor]).
  assert (TAIL : forall c h r, utf8_enc1 c = Ok h -> scalar c -> Forall (fun x => x < 256) r -> bind (utf8_dec f r) (fun x => Ok (c :: x)) = Ok t -> utf8_encode t = Ok (h ++ r) /\ Forall scalar t).
  { intros c h r E S F D. destruct (utf8_dec f r) as [x|] eqn:R; [|discriminate]. cbn [bind] in D. injection D as <-. destruct (IH _ _ F R) as (U & V).
    rewrite encode_cons, E, U. split; [reflexivity|now constructor]. }
  assert (Ba : a < 256) by now inversion B.
  destruct (N.ltb_spec a 128).
  { intros D. apply (TAIL a [a] l1); [|left; lia|now inversion B|exact D]. unfold utf8_enc1. destruct (N.ltb_spec a 128); [reflexivity|lia]. }
  destruct (N.ltb_spec a 194); [discriminate|]. destruct l1 as [|b l2]; [discriminate|].
  destruct (cont b) eqn:Cb; cbn [negb]; [|discriminate]. unfold cont in Cb. apply andb_prop in Cb as (Cb1 & Cb2). apply N.leb_le in Cb1. apply N.ltb_lt in Cb2.
  assert (F2 : Forall (fun x => x < 256) l2) by (inversion B as [|? ? ? B']; now inversion B').
  destruct (N.ltb_spec a 224).
  { intros D. apply (TAIL ((a - 192) * 64 + (b - 128)) [a; b] l2); [|left; lia|exact F2|exact D]. unfold utf8_enc1.
    destruct (N.ltb_spec ((a - 192) * 64 + (b - 128)) 128); [lia|]. destruct (N.ltb_spec ((a - 192) * 64 + (b - 128)) 2048); [|lia].
    replace (((a - 192) * 64 + (b - 128)) / 64) with (a - 192) by lia. replace (((a - 192) * 64 + (b - 128)) mod 64) with (b - 128) by lia.
    replace (192 + (a - 192)) with a by lia. replace (128 + (b - 128)) with b by lia. reflexivity. }
  destruct l2 as [|c l3]; [discriminate|]. destruct (cont c) eqn:Cc; cbn [negb]; [|discriminate]. unfold cont in Cc. apply andb_prop in Cc as (Cc1 & Cc2). apply N.leb_le in Cc1. apply N.ltb_lt in Cc2.
  assert (F3 : Forall (fun x => x < 256) l3) by now inversion F2.
  destruct (N.ltb_spec a 240).
  { cbv zeta. remember ((a - 224) * 4096 + (b - 128) * 64 + (c - 128)) as p eqn:P.
    destruct (N.ltb_spec p 2048); cbn [orb]; [discriminate|]. destruct ((55296 <=? p) && (p <? 57344)) eqn:SU; [discriminate|]. intros D.
    assert (SC : scalar p) by (unfold scalar; apply andb_false_iff in SU; destruct SU as [SU|SU]; [apply N.leb_gt in SU; left; lia|apply N.ltb_ge in SU; right; lia]).
    apply (TAIL p [a; b; c] l3); [|exact SC|exact F3|exact D]. unfold utf8_enc1. destruct (N.ltb_spec p 128); [lia|]. destruct (N.ltb_spec p 2048); [lia|]. rewrite SU.
    destruct (N.ltb_spec p 65536); [|lia]. replace (p / 4096) with (a - 224) by lia. replace (p / 64 mod 64) with (b - 128) by lia. replace (p mod 64) with (c - 128) by lia.
    replace (224 + (a - 224)) with a by lia. replace (128 + (b - 128)) with b by lia. replace (128 + (c - 128)) with c by lia. reflexivity. }
  destruct (N.ltb_spec a 245); [|discriminate]. destruct l3 as [|d l4]; [discriminate|]. destruct (cont d) eqn:Cd; cbn [negb]; [|discriminate]. unfold cont in Cd. apply andb_prop in Cd as (Cd1 & Cd2). apply N.leb_le in Cd1. apply N.ltb_lt in Cd2.
  assert (F4 : Forall (fun x => x < 256) l4) by now inversion F3.
  cbv zeta. remember ((a - 240) * 262144 + (b - 128) * 4096 + (c - 128) * 64 + (d - 128)) as p eqn:P.
  destruct (N.ltb_spec p 65536); cbn [orb]; [discriminate|]. destruct (N.leb_spec 1114112 p); [discriminate|]. intros D.
  apply (TAIL p [a; b; c; d] l4); [|right; lia|exact F4|exact D]. unfold utf8_enc1. destruct (N.ltb_spec p 128); [lia|]. destruct (N.ltb_spec p 2048); [lia|].
  destruct (N.leb_spec 55296 p); cbn [andb]; [|lia]. destruct (N.ltb_spec p 57344); [lia|]. destruct (N.ltb_spec p 65536); [lia|].
  replace (p / 262144) with (a - 240) by lia. replace (p / 4096 mod 64) with (b - 128) by lia. replace (p / 64 mod 64) with (c - 128) by lia. replace (p mod 64) with (d - 128) by lia.
  replace (240 + (a - 240)) with a by lia. replace (128 + (b - 128)) with b by lia. replace (128 + (c - 128)) with c by lia. replace (128 + (d - 128)) with d by lia. reflexivity.
Qed.
(** C59: the bytes of a message are accepted iff they are the UTF-8 encoding of some text,
    which is then the text read: no overlong form, surrogate, truncated or out-of-range
    sequence is accepted and no two byte sequences give the same text. *)
Theorem C59_utf8 l t : Forall (fun b => b < 256) l -> (utf8_decode l = Ok t <-> utf8_encode t = Ok l /\ Forall scalar t).
Proof.
  intros B. split; [now apply dec_enc|]. intros (E & S). destruct (utf8_encode_decode S) as (b & E' & _ & D). congruence.
Qed.
Theorem C59_encodable t : Forall scalar t -> exists l, utf8_encode t = Ok l /\ Forall (fun b => b < 256) l.
Proof. intros S. destruct (utf8_encode_decode S) as (b & E' & B & D). eauto. Qed.
(** A message whose bytes encode no text is rejected whatever else it contains. *)
Theorem C59_body raw : Forall (fun b => b < 256) raw -> (forall t, utf8_encode t <> Ok raw) -> is_ok (decode_body raw) = false.
Proof.
  intros B N. unfold decode_body. destruct (utf8_decode raw) as [t|] eqn:D; [|reflexivity]. apply (C59_utf8 t B) in D as (D & _). now apply N in D.
Qed.
Example utf8_case : utf8_encode [8364; 128169; 233; 65] = Ok [226; 130; 172; 240; 159; 146; 169; 195; 169; 65] /\ utf8_decode [226; 130; 172; 240; 159; 146; 169; 195; 169; 65] = Ok [8364; 128169; 233; 65]
  /\ utf8_decode [192; 175] = Err ValueError /\ utf8_decode [237; 160; 128] = Err ValueError /\ utf8_decode [226; 130] = Err ValueError.
Proof. repeat split; vm_compute; reflexivity. Qed.
Print Assumptions C59_utf8.
Print Assumptions C59_encodable.
Print Assumptions C59_body.
