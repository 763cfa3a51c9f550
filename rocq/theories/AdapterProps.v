(** Property theorems C01-C04, C06: the DAP connection. *)
From Verif Require Import PyBase PyDict Digits JsonModel JsonProofs MsgBase MsgTables MsgModel MsgSpec MsgProofs MsgProofs2 MsgProofs3 MsgProofs4 MsgProps AdapterModel AdapterSpec AdapterProofs AdapterProofs2 IntSpec IntProofs HeaderSpec HeaderProofs.
From Coq Require Import ZifyBool ZifyNat ZifyN.

(** C01: for every history of calls, the chunks handed out followed by the remaining buffer are the frames of
    the queued messages, in order. *)
Theorem C01_outgoing_conserved : forall ops, exists fs,
  frames_of (queued (fst (run new_conn ops))) = Ok fs /\
  handed (fst (run new_conn ops)) ++ out (snd (run new_conn ops)) = fs.
Proof. exact (fun ops => conserve ops new_conn). Qed.
Print Assumptions C01_outgoing_conserved.
Definition ex_ops : list op := [Queue ex_thread_evt; Take 10; Take (-7); Queue ex_thread_evt; Take 0; Take 1000; Queue ex_thread_evt; Take (-1)].
Example C01_nonvacuous : length (queued (fst (run new_conn ex_ops))) = 3 /\ handed (fst (run new_conn ex_ops)) <> [].
Proof. split; vm_compute; [reflexivity|discriminate]. Qed.

(** C02: the frame of a message is a header with the exact number of payload bytes, and a payload of printable ASCII.
    [cpj j]: all characters are code points (below 0x110000), which every Python string satisfies. *)
Lemma frame_exact c v j : enc (set_seq v (seq_out c)) = Ok j -> cpj j ->
  exists payload, out (snd (queue_msg c v)) = out c ++ frame_spec payload /\
    Forall (fun b => 32 <= b < 127)%N payload /\ loads payload = loads (dumps j).
Proof.
  intros He Hc. exists (dumps j). rewrite (queue_ok_frame c v j He Hc). cbn [snd out]. split; [|split; auto].
  - unfold frame_bytes, header, frame_spec. now rewrite <- app_assoc.
  - pose proof (dumps_plain _ Hc) as H. eapply Forall_impl; [|exact H]. unfold plain. cbn beta. auto.
Qed.
Theorem C02_length_counts_bytes : forall c v j, enc (set_seq v (seq_out c)) = Ok j -> cpj j ->
  exists payload, out (snd (queue_msg c v)) = out c ++ frame_spec payload /\
    Forall (fun b => 32 <= b < 127)%N payload /\ loads payload = loads (dumps j).
Proof. exact frame_exact. Qed.
Print Assumptions C02_length_counts_bytes.
Definition ex_unicode_evt : pval := PObj C_ThreadEvent
  [(s "seq", PInt 0); (s "message_type", PEnum E_MessageType (s "event")); (s "event", PEnum E_EventType (s "thread"));
   (s "reason", PStr [233; 8364; 128512; 10; 13; 55357]%N); (s "thread_id", PInt 2)].
Example C02_nonvacuous : exists j, enc (set_seq ex_unicode_evt 1) = Ok j /\ cpj j.
Proof.
  eexists. split; [vm_compute; reflexivity|].
  cbn. repeat split; try (repeat constructor; unfold cp; lia).
Qed.

(** C03: whatever the cuts, the receiver gets exactly the messages, in order, and an empty buffer. *)
Theorem C03_segmentation_independent : forall vs snd_c rcv chunks,
  Forall sendable vs -> seq_in rcv = seq_out snd_c -> inb rcv = [] ->
  out snd_c ++ concat chunks = out (queue_all snd_c vs) ->
  feed rcv chunks = (Ok (number (seq_out snd_c) vs), mkConn (out rcv) [] (seq_out snd_c + Z.of_nat (length vs)) (seq_out rcv)).
Proof. exact segmentation. Qed.
Print Assumptions C03_segmentation_independent.
Example C03_nonvacuous :
  Forall sendable [ex_thread_evt; ex_thread_evt] /\
  let stream := out (queue_all new_conn [ex_thread_evt; ex_thread_evt]) in
  feed new_conn [firstn 5 stream; firstn 30 (skipn 5 stream); []; skipn 35 stream] =
    (Ok (number 1 [ex_thread_evt; ex_thread_evt]), mkConn [] [] 3 1).
Proof.
  split; [repeat constructor; exists C_ThreadEvent, MEvt; left; exact C07_nonvacuous_hyp|vm_compute; reflexivity].
Qed.

(** C04: numbers given out are increasing, and exactly 1, 2, 3, ... when every message serialises;
    numbers accepted are increasing, exactly 1, 2, 3, ... when nothing was rejected. *)
Theorem C04_outgoing_numbers : forall ops,
  increasing (queue_numbers (fst (run new_conn ops))) /\
  (Forall queue_ok (fst (run new_conn ops)) ->
   queue_numbers (fst (run new_conn ops)) = zseq 1 (length (queue_numbers (fst (run new_conn ops))))).
Proof. exact (fun ops => let H := out_numbers ops new_conn in conj (proj1 (proj2 H)) (proj2 (proj2 H))). Qed.
Print Assumptions C04_outgoing_numbers.
Lemma in_numbers0 ops : exists ns,
  Forall2 seq_is (accepted (fst (run new_conn ops))) ns /\ increasing ns /\
  (Forall next_ok (fst (run new_conn ops)) -> ns = zseq 1 (length ns)).
Proof. destruct (in_numbers ops new_conn) as (ns & H1 & _ & H3 & H4). exists ns. auto. Qed.
Theorem C04_incoming_numbers : forall ops, exists ns,
  Forall2 seq_is (accepted (fst (run new_conn ops))) ns /\ increasing ns /\
  (Forall next_ok (fst (run new_conn ops)) -> ns = zseq 1 (length ns)).
Proof. exact in_numbers0. Qed.
Print Assumptions C04_incoming_numbers.
(** a well-formed message with any other number is refused with ValueError *)
Lemma wrong_number c v n rest : sendable v -> n <> seq_in c ->
  (exists j, enc (set_seq v n) = Ok j /\ inb c = frame_spec (dumps j) ++ rest) ->
  fst (next_message c) = Err ValueError /\ inb (snd (next_message c)) = rest.
Proof.
  intros Hs Hn (j & He & Hi). destruct (sendable_good v n Hs) as (j' & He' & Hw & Hu & Hq).
  rewrite He in He'. injection He' as <-.
  assert (Hi' : inb c = frame_bytes (dumps j) ++ rest) by (rewrite Hi; unfold frame_bytes, header, frame_spec; now rewrite <- !app_assoc).
  rewrite (next_frame c _ _ Hi'), (decode_dumps j _ Hw Hu). cbn [finish]. rewrite Hq. cbn [seq_eqb].
  destruct (seq_in c =? n)%Z eqn:E; [apply Z.eqb_eq in E; congruence|]. cbn. auto.
Qed.
Theorem C04_wrong_number_refused : forall c v n rest, sendable v -> n <> seq_in c ->
  (exists j, enc (set_seq v n) = Ok j /\ inb c = frame_spec (dumps j) ++ rest) ->
  fst (next_message c) = Err ValueError /\ inb (snd (next_message c)) = rest.
Proof. exact wrong_number. Qed.
Print Assumptions C04_wrong_number_refused.
(** Every message has a number: *)
Lemma build_seq c a v : build c a = Ok v -> mem (s "seq") (map fname (MsgTables.fields c)) = true -> exists q, get_attr v (s "seq") = Ok q.
Proof.
  unfold build. destruct (mapM _ (MsgTables.fields c)) as [attrs|] eqn:E; cbn [bind]; [|discriminate]. intros H M; injection H as <-. cbn [get_attr].
  assert (K : map fst attrs = map fname (MsgTables.fields c)).
  { clear M. revert attrs E. induction (MsgTables.fields c) as [|fd l IH]; intros attrs E; [cbn in E; injection E as <-; reflexivity|].
    rewrite mapM_cons in E. destruct (match last_assign a (fname fd) with Some v => _ | None => _ end) as [x|] eqn:X; cbn [bind] in E; [|discriminate].
    destruct (mapM _ l) as [r|] eqn:R; cbn [bind] in E; [|discriminate]. injection E as <-. cbn [map]. f_equal; [|now apply IH].
    destruct (last_assign a (fname fd)); [injection X as <-; reflexivity|]. destruct (fdef fd); try discriminate. injection X as <-. reflexivity. }
  apply mem_In in M. rewrite <- K in M. destruct (dget attrs (s "seq")) as [q|] eqn:G; [eauto|]. exfalso. apply dget_None in G. contradiction.
Qed.
Lemma cls_seq c j v : cls_unpack c j = Ok v -> mem (s "seq") (map fname (MsgTables.fields c)) = true -> exists q, get_attr v (s "seq") = Ok q.
Proof.
  unfold cls_unpack. cbn [unpack_obj].
  assert (Hd : default_unpack (unpack_obj (jdepth j)) c j = Ok v -> mem (s "seq") (map fname (MsgTables.fields c)) = true -> exists q, get_attr v (s "seq") = Ok q).
  { unfold default_unpack. destruct (run_queue _ _ _ _ _); cbn [bind]; [|discriminate]. apply build_seq. }
  destruct c; try exact Hd; cbn [unpack1]; unfold attach_unpack, launch_unpack; destruct j; try discriminate;
    unfold getitem; destruct (dget d (s "arguments")) as [a|]; cbn [bind]; try discriminate; destruct a as [| | | | |ja]; try discriminate;
    unfold pop_default; destruct (dget d (s "seq")); cbn [bind]; try discriminate; apply build_seq.
Qed.
Lemma unpack_seq j v : unpack_msg j = Ok v -> exists q, get_attr v (s "seq") = Ok q.
Proof.
  assert (R : forall (l : list (pystr * cid)) k c, forallb (fun p => mem (s "seq") (map fname (MsgTables.fields (snd p)))) l = true -> dget l k = Some c -> mem (s "seq") (map fname (MsgTables.fields c)) = true).
  { intros l k c H G. apply dget_In in G. rewrite forallb_forall in H. exact (H _ G). }
  assert (S : forall (l : list (pystr * cid)) x u c j v, forallb (fun p => mem (s "seq") (map fname (MsgTables.fields (snd p)))) l = true -> reg_get l x = Ok u -> u = Some c ->
    cls_unpack c j = Ok v -> exists q, get_attr v (s "seq") = Ok q).
  { intros l x u c j0 v0 H G -> C. eapply cls_seq; [exact C|]. unfold reg_get in G. destruct x; try discriminate. injection G as G. eapply R; eauto. }
  destruct j; try discriminate. cbn [unpack_msg]. unfold getitem.
  destruct (dget d (s "type")) as [ty|]; cbn [bind]; [|discriminate]. destruct (reg_get registry ty) as [[[| |]|]|]; cbn [bind]; try discriminate.
  - destruct (dget d (s "command")) as [x|]; cbn [bind]; [|discriminate]. destruct (reg_get reg_request x) as [[c|]|] eqn:E; cbn [bind]; try discriminate.
    eapply S; [|exact E|reflexivity]. vm_compute. reflexivity.
  - destruct (dget d (s "command")) as [x|]; cbn [bind]; [|discriminate]. destruct (dget d (s "success")) as [su|]; cbn [bind]; [|discriminate].
    destruct (reg_get reg_response _) as [[c|]|] eqn:E; cbn [bind]; try discriminate.
    eapply S; [|exact E|reflexivity]. vm_compute. reflexivity.
  - destruct (dget d (s "event")) as [x|]; cbn [bind]; [|discriminate]. destruct (reg_get reg_event x) as [[c|]|] eqn:E; cbn [bind]; try discriminate.
    eapply S; [|exact E|reflexivity]. vm_compute. reflexivity.
Qed.
(** Whatever the client wrote: a complete body that is a message is handed out if its
    number is the next one, and refused with ValueError if it is any other; either way it
    is used up and counted.  A body that is not a message raises and is not counted. *)
Theorem C04_every_body_checked : forall c hdr body rest,
  first_at [13; 10; 13; 10]%N (inb c) hdr (body ++ rest) -> declares_length hdr (Z.of_nat (length body)) ->
  (forall m, decode_body body = Ok m ->
     exists r, next_message c = (r, mkConn (out c) rest (seq_in c + 1) (seq_out c)) /\
       (seq_is m (seq_in c) -> r = Ok (Some m)) /\ (~ seq_is m (seq_in c) -> r = Err ValueError)) /\
  (forall e, decode_body body = Err e -> next_message c = (Err e, mkConn (out c) rest (seq_in c) (seq_out c))).
Proof.
  intros c hdr body rest F D. apply find_first_iff in F. apply content_length_spec in D.
  rewrite (next_complete c hdr _ _ body rest F D eq_refl eq_refl). split; [|intros e ->; reflexivity].
  intros m E. rewrite E. cbn [finish].
  assert (U : exists q, get_attr m (s "seq") = Ok q).
  { unfold decode_body in E. destruct (utf8_decode body) as [t|]; cbn [bind] in E; [|discriminate]. destruct (loads t) as [j|]; cbn [bind] in E; [|discriminate]. eapply unpack_seq; eauto. }
  destruct U as (q & Q). rewrite Q. eexists. split; [reflexivity|].
  assert (A : attr m "seq" = Some q).
  { unfold get_attr in Q. destruct m as [| | | | | | |cc attrs]; try discriminate. cbn [attr]. destruct (dget attrs (s "seq")); [|discriminate]. now injection Q as ->. }
  unfold seq_is. rewrite A. split.
  - intros [H|[(H1 & H)|(H1 & H)]]; injection H as ->; cbn [seq_eqb]; rewrite ?H1, ?Z.eqb_refl; reflexivity.
  - intros N. destruct (seq_eqb (seq_in c) q) eqn:S; [|reflexivity]. exfalso. apply N.
    destruct q as [|[|]|z| | | | |]; cbn [seq_eqb] in S; try discriminate; apply Z.eqb_eq in S; rewrite S; auto.
Qed.
Print Assumptions C04_every_body_checked.
Example C04_checked_nonvacuous :
  let b := s "{""command"": ""threads"", ""type"": ""request"", ""seq"": 3}" in let hdr := s "X: y" ++ crlf ++ s "Content-Length: 51" in
  first_at crlf2 (hdr ++ crlf2 ++ b ++ s "tail") hdr (b ++ s "tail") /\ declares_length hdr (Z.of_nat (length b)) /\
  exists m, decode_body b = Ok m /\ seq_is m 3 /\ ~ seq_is m 1.
Proof.
  split; [apply find_first_iff; vm_compute; reflexivity|]. split; [apply content_length_spec; vm_compute; reflexivity|].
  eexists. split; [vm_compute; reflexivity|]. split; [left; vm_compute; reflexivity|]. vm_compute. intros [H|[(_ & H)|(_ & H)]]; discriminate.
Qed.
Example C04_nonvacuous :
  let stream := out (queue_all new_conn [ex_thread_evt; ex_thread_evt]) in
  queue_numbers (fst (run new_conn ex_ops)) = [1; 2; 3]%Z /\
  length (accepted (fst (run new_conn [Recv stream; Next; Next; Next]))) = 2.
Proof. split; vm_compute; reflexivity. Qed.

(** C06 *)
Lemma none_untouched c c' : next_message c = (Ok None, c') -> c' = c.
Proof.
  intros En. unfold next_message in En. destruct (find_sub crlf2 (inb c)) as [[h a]|]; [|congruence].
  destruct (content_length h); [|discriminate]. destruct (_ <? _)%Z; [congruence|].
  destruct (decode_body _) as [m|]; [|discriminate]. destruct (get_attr m _) as [q|] eqn:Eq; [|discriminate].
  destruct (seq_eqb _ q); discriminate.
Qed.
Theorem C06_none_leaves_buffer : forall c c', next_message c = (Ok None, c') -> c' = c.
Proof. exact none_untouched. Qed.
Print Assumptions C06_none_leaves_buffer.
(** every strict prefix of a frame gives None *)
Lemma incomplete_none c payload r : r <> [] -> inb c ++ r = frame_spec payload -> next_message c = (Ok None, c).
Proof.
  intros Hr Hi. apply (next_prefix c payload r Hr). rewrite Hi. unfold frame_bytes, header, frame_spec. now rewrite <- app_assoc.
Qed.
Theorem C06_incomplete_is_none : forall c payload r, r <> [] -> inb c ++ r = frame_spec payload -> next_message c = (Ok None, c).
Proof. exact incomplete_none. Qed.
Print Assumptions C06_incomplete_is_none.
(** a header block that does not declare a length raises ValueError and leaves everything untouched *)
Lemma bad_header c hdr rest : first_at crlf2 (inb c) hdr rest -> (forall z, ~ declares_length hdr z) -> next_message c = (Err ValueError, c).
Proof.
  intros Hf Hb. apply find_first_iff in Hf. unfold next_message. rewrite Hf. destruct (content_length hdr) as [z|e] eqn:E.
  - apply content_length_spec in E. destruct (Hb _ E).
  - now rewrite (content_length_err _ _ E).
Qed.
Theorem C06_bad_header_leaves_buffer : forall c hdr rest, first_at [13; 10; 13; 10]%N (inb c) hdr rest ->
  (forall z, ~ declares_length hdr z) -> next_message c = (Err ValueError, c).
Proof. exact bad_header. Qed.
Print Assumptions C06_bad_header_leaves_buffer.
(** without an end of the header block, or with fewer bytes than declared after it, there is no message yet *)
Theorem C06_waits : forall c, (~ occurs [13; 10; 13; 10]%N (inb c) \/
    exists hdr rest z, first_at [13; 10; 13; 10]%N (inb c) hdr rest /\ declares_length hdr z /\ (Z.of_nat (length rest) < z)%Z) ->
  next_message c = (Ok None, c).
Proof.
  intros c [H|(hdr & rest & z & F & D & L)].
  - unfold next_message. destruct (find_sub crlf2 (inb c)) as [[a b]|] eqn:E; [|reflexivity]. apply find_sub_sound in E. destruct H. exists a, b. exact E.
  - apply find_first_iff in F. apply content_length_spec in D. exact (next_incomplete c hdr rest z F D L).
Qed.
Print Assumptions C06_waits.
(** a complete frame is removed exactly, whether its body is accepted or not (Content-Length not negative) *)
Lemma frame_removed c hdr body rest :
  find_sub crlf2 (inb c) = Some (hdr, body ++ rest) -> content_length hdr = Ok (Z.of_nat (length body)) ->
  inb (snd (next_message c)) = rest /\ out (snd (next_message c)) = out c /\
  (forall c2, find_sub crlf2 (inb c2) = Some (hdr, body ++ rest) -> seq_in c2 = seq_in c -> fst (next_message c2) = fst (next_message c)).
Proof.
  intros Hf Hc. rewrite (next_complete c hdr _ _ body rest Hf Hc eq_refl eq_refl). repeat split.
  - unfold finish. destruct (decode_body body); reflexivity.
  - unfold finish. destruct (decode_body body); reflexivity.
  - intros c2 Hf2 Hs. rewrite (next_complete c2 hdr _ _ body rest Hf2 Hc eq_refl eq_refl). unfold finish. rewrite Hs.
    destruct (decode_body body) as [m|]; [|reflexivity]. reflexivity.
Qed.
Theorem C06_frame_removed_partial : forall c hdr body rest,
  first_at [13; 10; 13; 10]%N (inb c) hdr (body ++ rest) -> declares_length hdr (Z.of_nat (length body)) ->
  inb (snd (next_message c)) = rest /\ out (snd (next_message c)) = out c /\
  (forall c2 hdr2 rest2, first_at [13; 10; 13; 10]%N (inb c2) hdr2 (body ++ rest2) -> declares_length hdr2 (Z.of_nat (length body)) -> seq_in c2 = seq_in c -> fst (next_message c2) = fst (next_message c)).
Proof.
  intros c hdr body rest F D. apply find_first_iff in F. apply content_length_spec in D. destruct (frame_removed _ _ _ _ F D) as (A & B & _). split; [exact A|]. split; [exact B|].
  intros c2 hdr2 rest2 F2 D2 S. apply find_first_iff in F2. apply content_length_spec in D2.
  rewrite (next_complete c hdr _ _ body rest F D eq_refl eq_refl), (next_complete c2 hdr2 _ _ body rest2 F2 D2 eq_refl eq_refl). unfold finish. rewrite S. destruct (decode_body body); reflexivity.
Qed.
Print Assumptions C06_frame_removed_partial.
(** a negative Content-Length is neither: it raises but rewinds the buffer into the header block *)
Theorem C06_negative_length_refuted : exists c,
  inb c = s "Content-Length: -4" ++ crlf2 ++ s "{}" /\
  fst (next_message c) = Err ValueError /\ inb (snd (next_message c)) = crlf2 ++ s "{}".
Proof. exists (mkConn [] (s "Content-Length: -4" ++ crlf2 ++ s "{}") 1 1). repeat split; vm_compute; reflexivity. Qed.
Print Assumptions C06_negative_length_refuted.
Example C06_header_nonvacuous :
  declares_length (s "X: y" ++ crlf ++ s "Content-Length: +1_0 ") 10 /\ (forall z, ~ declares_length (s "Content-Length: ") z) /\ (forall z, ~ declares_length (s "Content-Length: 1: 2") z) /\
  first_at crlf2 (s "Content-Length: x" ++ crlf2 ++ s "{}" ++ crlf2) (s "Content-Length: x") (s "{}" ++ crlf2).
Proof.
  split; [apply content_length_spec; vm_compute; reflexivity|]. split; [intros z H; apply content_length_spec in H; vm_compute in H; discriminate|].
  split; [intros z H; apply content_length_spec in H; vm_compute in H; discriminate|]. apply find_first_iff. vm_compute. reflexivity.
Qed.
Example C06_nonvacuous :
  next_message (mkConn [] (s "Content-Type: x" ++ crlf2 ++ s "{}") 1 1) = (Err ValueError, mkConn [] (s "Content-Type: x" ++ crlf2 ++ s "{}") 1 1) /\
  next_message (mkConn [] (s "X: y" ++ crlf ++ s "Content-Length: 2" ++ crlf2 ++ s "{}abc") 1 1) = (Err KeyError, mkConn [] (s "abc") 1 1).
Proof. split; vm_compute; reflexivity. Qed.
