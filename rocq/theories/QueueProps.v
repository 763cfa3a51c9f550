(** C37, C38, C39, C41, C42: the queue between adapter and debuggee. *)
From Verif Require Import PyBase QueueModel QueueProofs.
Set Implicit Arguments.
Local Open Scope N_scope.

(** What is assumed of pickle: loads inverts dumps; a truncated pickle and the empty
    string raise (anything but the queue's own CancelledError). *)
Record codec (M : Type) (dumps : M -> bytes) (loads : bytes -> res M) : Prop := {
  c_inv : forall m, loads (dumps m) = Ok m;
  c_cut : forall m p q, dumps m = p ++ q -> q <> [] -> exists e, loads p = Err e /\ e <> CancelledError;
  c_empty : exists e, loads [] = Err e /\ e <> CancelledError }.
(** [l]: the pieces in which the bytes [b] arrive, in any fragmentation. *)
Definition pieces (l : list bytes) (b : bytes) : Prop := concat l = b /\ Forall (fun c => c <> []) l.

(** C37: every list of messages, sent one after the other, however the bytes are cut into
    pieces: the receiver's callback gets exactly these messages in this order and then
    the closed callback, once, without an exception. *)
Theorem C37_lossless M (dumps : M -> bytes) loads raises ms fs l :
  codec dumps loads -> (forall h m, raises h m = None) ->
  mapM (send dumps) ms = Ok fs -> pieces l (concat fs) ->
  recv_handler loads raises (map Data l) = map (@CbMsg M) ms ++ [CbClosed None].
Proof.
  intros [H1 H2 H3] HC E (L & NE). unfold recv_handler.
  replace (map Data l) with (map Data l ++ closing None) by apply app_nil_r.
  assert (SD : sockdata (map Data l ++ closing None) = concat l) by (cbn; rewrite app_nil_r; unfold sockdata; rewrite flat_map_concat_map, map_map, map_id; reflexivity).
  rewrite SD. destruct (@handler_cut M loads raises dumps H1 H2 H3 HC ms fs (S (length (concat l))) [] (concat fs) [] l None E (eq_sym (app_nil_r _)) L NE)
    as (dn & un & fd & fu & part & x & M1 & M2 & M3 & M4 & M5 & M6 & M7); [rewrite <- L; lia|].
  assert (P : part = []).
  { rewrite M2, concat_app in M4. apply app_inv_head in M4. destruct M5 as [M5|(f & r & q & F & FE & QN)]; auto.
    rewrite F in M4. cbn in M4. rewrite FE, <- app_assoc in M4. apply (f_equal (@length N)) in M4. rewrite !app_length in M4. destruct q; [congruence|cbn in M4; lia]. }
  assert (U : un = []).
  { rewrite M1 in E. rewrite P, app_nil_r in M4. rewrite M2, concat_app in M4. rewrite <- (app_nil_r (concat fd)) in M4 at 2. apply app_inv_head in M4.
    destruct (mapM (send dumps) un) as [fu'|] eqn:EU.
    - assert (X : mapM (send dumps) (dn ++ un) = Ok (fd ++ fu')).
      { clear - M3 EU. revert fd M3. induction dn as [|m dn IH]; intros fd M3.
        - cbn in M3. injection M3 as <-. exact EU.
        - rewrite <- app_comm_cons, mapM_cons in *. destruct (send dumps m); [|discriminate]. cbn [bind] in *. destruct (mapM (send dumps) dn) as [fd'|]; [|discriminate].
          injection M3 as <-. rewrite (IH _ eq_refl). reflexivity. }
      rewrite X in E. injection E as E. rewrite M2 in E. apply app_inv_head in E. subst fu'. eapply frames_nonempty; eauto.
    - exfalso. clear - M3 EU E. revert fs E fd M3. induction dn as [|m dn IH]; intros fs E fd M3.
      + cbn in E. congruence.
      + rewrite <- app_comm_cons, mapM_cons in E. rewrite mapM_cons in M3. destruct (send dumps m); [|discriminate]. cbn [bind] in *. destruct (mapM (send dumps) (dn ++ un)) eqn:Q; [|discriminate].
        destruct (mapM (send dumps) dn); [|discriminate]. eapply IH; eauto. }
  rewrite U, app_nil_r in M1. subst dn. rewrite M6. do 2 f_equal. cbn in M7. assert (x = None) as -> by (apply M7; auto). reflexivity.
Qed.
(** The same for the client end, which reads one greeting byte first. *)
Theorem C37_client_lossless M (dumps : M -> bytes) loads raises ms fs l b0 :
  codec dumps loads -> (forall h m, raises h m = None) ->
  mapM (send dumps) ms = Ok fs -> pieces l (b0 :: concat fs) ->
  client_run loads raises (map Data l) = Ok (map (@CbMsg M) ms ++ [CbClosed None]).
Proof.
  intros HC HR E (L & NE). unfold client_run. pose proof (@recv_data l 1 None NE) as R. rewrite L in R.
  destruct (N.leb_spec 1 (blen (b0 :: concat fs))) as [B|B]; [|unfold blen in B; cbn in B; lia].
  destruct R as (l1 & R & L1 & N1). cbn [closing] in R. rewrite !app_nil_r in R. rewrite R. f_equal. eapply C37_lossless; eauto. split; auto.
Qed.

(** C38: the bytes stop after any prefix [b] of the stream, by the peer closing, a socket
    error or a cancellation: exactly the messages that arrived completely are delivered,
    then the closed callback; for a peer that closed, it has an exception iff the cut is
    inside a message. *)
Theorem C38_cut M (dumps : M -> bytes) loads raises ms fs b rest l t :
  codec dumps loads -> (forall h m, raises h m = None) ->
  mapM (send dumps) ms = Ok fs -> concat fs = b ++ rest -> pieces l b ->
  exists done undone fd fu part x,
    ms = done ++ undone /\ fs = fd ++ fu /\ mapM (send dumps) done = Ok fd /\
    b = concat fd ++ part /\ (part = [] \/ exists f r q, fu = f :: r /\ f = part ++ q /\ q <> []) /\
    recv_handler loads raises (map Data l ++ match t with None => [] | Some e => [Fail e] end) = map (@CbMsg M) done ++ [CbClosed x] /\
    (t = None -> (x = None <-> part = [])) /\ (t = Some CancelledError -> x = None) /\
    (forall e, t = Some e -> e <> CancelledError -> x = Some e).
Proof.
  intros [H1 H2 H3] HC E C (L & NE). unfold recv_handler. fold (closing t).
  assert (SD : sockdata (map Data l ++ closing t) = concat l).
  { unfold sockdata. rewrite flat_map_app, flat_map_concat_map, map_map, map_id. destruct t; cbn; apply app_nil_r. }
  rewrite SD. destruct (@handler_cut M loads raises dumps H1 H2 H3 HC ms fs (S (length (concat l))) [] b rest l t E C L NE)
    as (dn & un & fd & fu & part & x & M1 & M2 & M3 & M4 & M5 & M6 & M7); [rewrite <- L; lia|].
  exists dn, un, fd, fu, part, x. csplit; auto.
  - intros ->. exact M7.
  - intros ->. exact M7.
  - intros e -> NC. destruct e; cbn in M7; congruence.
Qed.
(** C38: whatever arrives (any bytes, any codec, any callback), the closed callback runs
    exactly once, after all messages; and the model's bounds on loops do not matter. *)
Theorem C38_closed_once M (loads : bytes -> res M) raises cs :
  (exists ms x, recv_handler loads raises cs = map (@CbMsg M) ms ++ [CbClosed x]) /\
  (forall f, (length (sockdata cs) < f)%nat -> handler loads raises f [] cs = recv_handler loads raises cs).
Proof.
  split; [apply handler_closed_once|]. intros f L. unfold recv_handler. apply handler_enough; lia.
Qed.

(** C39: the little-endian value of the first four bytes is the number of bytes that
    follow; a message that is too long is refused with an OverflowError and no bytes. *)
Theorem C39_framing M (dumps : M -> bytes) m :
  (N.of_nat (length (dumps m)) < 2 ^ 32 -> exists b0 b1 b2 b3, send dumps m = Ok (b0 :: b1 :: b2 :: b3 :: dumps m) /\
     b0 < 256 /\ b1 < 256 /\ b2 < 256 /\ b3 < 256 /\
     b0 + b1 * 2 ^ 8 + b2 * 2 ^ 16 + b3 * 2 ^ 24 = N.of_nat (length (dumps m))) /\
  (2 ^ 32 <= N.of_nat (length (dumps m)) -> send dumps m = Err OverflowError).
Proof.
  split; intros H.
  - unfold send. destruct (@to_from (blen (dumps m)) H) as (b & E & L & V). unfold to_bytes4 in *. destruct (_ <? _); [|discriminate].
    injection E as <-. do 4 eexists. csplit; [reflexivity| | | | |]; try (apply N.mod_lt; lia).
    fold (blen (dumps m)). rewrite <- V at 5. cbn [from_bytes]. lia.
  - unfold send. now rewrite to_bytes4_big.
Qed.

(** C41. *)
Definition opened_in (tr : list sockact) : list nat := flat_map (fun a => match a with Opened i => [i] | _ => [] end) tr.
Definition closed_in (tr : list sockact) : list nat := flat_map (fun a => match a with SClosed i => [i] | _ => [] end) tr.
(** An OSError in Python: the class itself, ssl.SSLError and TimeoutError derive from it. *)
Definition an_oserror (e : exn) : Prop := e = OSError \/ e = SSLError \/ e = TimeoutError.
Lemma an_oserror_is e : an_oserror e <-> is_oserror e = true.
Proof. unfold an_oserror. split; [intros [-> |[-> | ->]]; reflexivity|destruct e; try discriminate; auto]. Qed.
Definition fails (a : addr_outcome) (e : exn) : Prop := ao_create a = None /\ ao_connect a = Some e /\ an_oserror e.
Definition accepts (a : addr_outcome) : Prop := ao_create a = None /\ ao_connect a = None.

Lemma last_def {A} (l : list A) x y : l <> [] -> last l x = last l y.
Proof. induction l as [|a [|b l] IH]; intros H; [congruence|reflexivity|]. change (last (b :: l) x = last (b :: l) y). apply IH. discriminate. Qed.
Lemma last_cons {A} (l : list A) (e x : A) : last (e :: l) x = last l e.
Proof. destruct l as [|a l]; [reflexivity|]. change (last (a :: l) x = last (a :: l) e). apply last_def. discriminate. Qed.
Lemma connect_fails pre es : Forall2 fails pre es -> forall i err post,
  connect_loop i err (pre ++ post) =
  let (tr, x) := connect_loop (i + length pre) (last es err) post in (flat_map (fun j => [Opened j; SClosed j]) (seq i (length pre)) ++ tr, x).
Proof.
  induction 1 as [|a e pre es (A & B & C) F IH]; intros i err post.
  - cbn. rewrite Nat.add_0_r. destruct (connect_loop i err post); reflexivity.
  - apply an_oserror_is in C. cbn [connect_loop app]. rewrite A, B, C, IH, last_cons. cbn [length seq flat_map app].
    replace (S i + length pre)%nat with (i + S (length pre))%nat by lia.
    destruct (connect_loop _ _ post). reflexivity.
Qed.
Lemma opened_app a b : opened_in (a ++ b) = opened_in a ++ opened_in b.
Proof. apply flat_map_app. Qed.
Lemma closed_app a b : closed_in (a ++ b) = closed_in a ++ closed_in b.
Proof. apply flat_map_app. Qed.
Lemma tried l : opened_in (flat_map (fun j => [Opened j; SClosed j]) l) = l /\ closed_in (flat_map (fun j => [Opened j; SClosed j]) l) = l.
Proof.
  induction l as [|x l (A & B)]; [auto|]. cbn [flat_map]. rewrite opened_app, closed_app, A, B. auto.
Qed.
(** C41, if a socket can be created for every address before the first that accepts: start()
    connects to that address, having tried and closed the others before it; if none
    accepts it raises the last error (OSError if the resolver has no addresses) and all
    are closed. *)
Theorem C41_first_accepting_partial pre es a post :
  Forall2 fails pre es -> accepts a ->
  exists tr, client_connect (pre ++ a :: post) = (tr, Ok (length pre)) /\
  opened_in tr = seq 0 (S (length pre)) /\ closed_in tr = seq 0 (length pre).
Proof.
  intros F (A & B). unfold client_connect. rewrite (connect_fails F). cbn [connect_loop]. rewrite A, B. eexists. csplit; [reflexivity| |].
  - rewrite opened_app. destruct (tried (seq 0 (length pre))) as (-> & _). cbn [Nat.add]. rewrite seq_S. reflexivity.
  - rewrite closed_app. destruct (tried (seq 0 (length pre))) as (_ & ->). cbn. apply app_nil_r.
Qed.
Theorem C41_all_fail_partial l es : Forall2 fails l es ->
  exists tr, client_connect l = (tr, Err (last es OSError)) /\ opened_in tr = seq 0 (length l) /\ closed_in tr = seq 0 (length l).
Proof.
  intros F. unfold client_connect. rewrite <- (app_nil_r l). rewrite (connect_fails F). cbn [connect_loop]. rewrite !app_nil_r. eexists. csplit; [reflexivity| |]; apply tried.
Qed.
(** C41 for any other exception (cancellation): it ends the attempt at once; the socket is
    left open. *)
Theorem C41_other_exception pre es a e post : Forall2 fails pre es -> ao_create a = None -> ao_connect a = Some e -> ~ an_oserror e ->
  exists tr, client_connect (pre ++ a :: post) = (tr, Err e) /\ closed_in tr = seq 0 (length pre).
Proof.
  intros F A B C. assert (C' : is_oserror e = false) by (destruct (is_oserror e) eqn:X; auto; exfalso; apply C; now apply an_oserror_is). clear C; rename C' into C. unfold client_connect. rewrite (connect_fails F). cbn [connect_loop]. rewrite A, B, C. eexists. split; [reflexivity|].
  rewrite closed_app. destruct (tried (seq 0 (length pre))) as (_ & ->). cbn. apply app_nil_r.
Qed.
(** C41 refuted: an address whose socket cannot be created (an address family the system
    does not support) ends the attempt although the next address would accept. *)
Theorem C41_unsupported_family_refuted : exists l a, In a l /\ accepts a /\ snd (client_connect l) = Err OSError.
Proof. exists [mkAddr (Some OSError) None; mkAddr None None], (mkAddr None None). csplit; cbn; auto. split; auto. Qed.
Example C41_case : Forall2 fails [mkAddr None (Some OSError); mkAddr None (Some TimeoutError)] [OSError; TimeoutError] /\ accepts (mkAddr None None).
Proof. split; [|split; reflexivity]. repeat first [apply Forall2_nil|apply Forall2_cons]; (split; [reflexivity|]); (split; [reflexivity|]); unfold an_oserror; auto. Qed.

(** C42: peers whose handshake or first byte fails with an SSLError are closed and the
    server waits on; the first other outcome decides. *)
Definition ssl_fails (x : acc) : Prop := match x with AccPeer hs sn => hs = Some SSLError \/ (hs = None /\ sn = Some SSLError) | AccFail _ => False end.
Definition outcome (x : acc) (n : nat) : sres :=
  match x with
  | AccFail e => SExn e
  | AccPeer (Some e) _ => SExn e
  | AccPeer None (Some e) => SExn e
  | AccPeer None None => SConn n
  end.
Lemma server_fails pre : Forall ssl_fails pre -> forall i post, server_loop i (pre ++ post) =
  let (c, x) := server_loop (i + length pre) post in (seq i (length pre) ++ c, x).
Proof.
  induction 1 as [|a pre A F IH]; intros i post; cbn [app].
  - cbn. rewrite Nat.add_0_r. destruct (server_loop i post); reflexivity.
  - cbn [server_loop length seq]. replace (i + S (length pre))%nat with (S i + length pre)%nat by lia.
    destruct a as [e|hs sn]; [contradiction|]. destruct A as [->|(-> & ->)]; cbn [peer_outcome is_sslerror]; rewrite IH; destruct (server_loop _ post); reflexivity.
Qed.
Theorem C42_tls_retry pre x post : Forall ssl_fails pre -> ~ ssl_fails x ->
  server_start true (pre ++ x :: post) = (seq 0 (length pre), outcome x (length pre)).
Proof.
  intros F N. unfold server_start. rewrite (server_fails F). cbn [server_loop].
  destruct x as [e|[e|] [e2|]]; cbn [peer_outcome outcome]; rewrite ?app_nil_r; try reflexivity.
  - destruct e; cbn [is_sslerror]; rewrite ?app_nil_r; try reflexivity. exfalso. apply N. now left.
  - destruct e; cbn [is_sslerror]; rewrite ?app_nil_r; try reflexivity. exfalso. apply N. now left.
  - destruct e2; cbn [is_sslerror]; rewrite ?app_nil_r; try reflexivity. exfalso. apply N. right. auto.
Qed.
Theorem C42_waits l : Forall ssl_fails l -> server_start true l = (seq 0 (length l), SWaits).
Proof. intros F. unfold server_start. rewrite <- (app_nil_r l) at 1. rewrite (server_fails F). cbn. now rewrite app_nil_r. Qed.
(** Without TLS the first accept decides. *)
Theorem C42_plain x post hs sn : (x = AccPeer hs sn -> server_start false (x :: post) = ([], match sn with None => SConn 0 | Some e => SExn e end)) /\
  (forall e, x = AccFail e -> server_start false (x :: post) = ([], SExn e)).
Proof. split; [intros ->; destruct sn; reflexivity|intros e ->; reflexivity]. Qed.
Example C42_case : Forall ssl_fails [AccPeer (Some SSLError) None; AccPeer None (Some SSLError)] /\ ~ ssl_fails (AccPeer None None) /\
  server_start true [AccPeer (Some SSLError) None; AccPeer None (Some SSLError); AccPeer None None] = ([0%nat; 1%nat], SConn 2).
Proof. csplit; auto; [constructor; [left; auto|constructor; [right; auto|constructor]]|]. intros [H|(_ & H)]; discriminate. Qed.

(** A codec: each byte preceded by 1, the end marked by 0. *)
Definition demo_dumps (m : bytes) : bytes := flat_map (fun x => [1; x]) m ++ [0].
Fixpoint demo_loads (b : bytes) : res bytes :=
  match b with
  | 1 :: x :: r => match demo_loads r with Ok m => Ok (x :: m) | Err e => Err e end
  | 0 :: _ => Ok []
  | _ => Err EOFError
  end.
Lemma demo_codec : codec demo_dumps demo_loads.
Proof.
  split.
  - induction m as [|x m IH]; [reflexivity|]. unfold demo_dumps in *. cbn [flat_map app demo_loads]. now rewrite IH.
  - induction m as [|x m IH]; intros p q E Q; unfold demo_dumps in *; cbn [flat_map app] in E.
    + destruct p as [|y p]; [exists EOFError; split; [reflexivity|discriminate]|]. cbn in E. injection E as <- E. symmetry in E. apply app_eq_nil in E. tauto.
    + destruct p as [|y p]; [exists EOFError; split; [reflexivity|discriminate]|]. injection E as <- E.
      destruct p as [|z p]; [exists EOFError; split; [reflexivity|discriminate]|]. injection E as <- E.
      destruct (IH p q E Q) as (e & H & N). exists e. cbn [demo_loads]. rewrite H. auto.
  - exists EOFError. split; [reflexivity|discriminate].
Qed.
(** Two messages, delivered in pieces; and the same stream cut inside the second one. *)
Example C37_case : exists fs l, mapM (send demo_dumps) [s "hi"; s "x"] = Ok fs /\ pieces l (concat fs) /\ (2 < length l)%nat /\
  recv_handler demo_loads (fun _ _ => None) (map Data l) = [CbMsg (s "hi"); CbMsg (s "x"); CbClosed None].
Proof.
  eexists. exists [[5]; [0; 0]; [0; 1; 104; 1; 105; 0; 3; 0]; [0; 0; 1]; [120; 0]]. csplit; [reflexivity| |cbn; lia|reflexivity].
  split; [reflexivity|]. repeat constructor; discriminate.
Qed.
Example C38_case : recv_handler demo_loads (fun _ _ => None) [Data [5]; Data [0; 0]; Data [0; 1; 104; 1; 105; 0; 3; 0]] = [CbMsg (s "hi"); CbClosed (Some EOFError)].
Proof. reflexivity. Qed.
Print Assumptions C37_lossless.
Print Assumptions C37_client_lossless.
Print Assumptions C38_cut.
Print Assumptions C38_closed_once.
Print Assumptions C39_framing.
Print Assumptions C41_first_accepting_partial.
Print Assumptions C41_all_fail_partial.
Print Assumptions C41_other_exception.
Print Assumptions C41_unsupported_family_refuted.
Print Assumptions C42_tls_retry.
Print Assumptions C42_waits.
Print Assumptions C42_plain.
