(** Lemmas about the queue. *)
From Verif Require Import PyBase QueueModel.
Set Implicit Arguments.
Local Open Scope N_scope.
Ltac csplit := repeat match goal with |- _ /\ _ => split end.

Lemma blen_app a b : blen (a ++ b) = blen a + blen b.
Proof. unfold blen. rewrite app_length. lia. Qed.

(** The header. *)
Lemma to_from n : n < 2 ^ 32 -> exists b, to_bytes4 n = Ok b /\ length b = 4%nat /\ from_bytes b = n.
Proof.
  intros H. unfold to_bytes4. destruct (N.ltb_spec n (2 ^ 32)) as [L|L]; [|lia]. eexists. csplit; [reflexivity|reflexivity|].
  cbn [from_bytes].
  pose proof (N.div_mod' n 256) as A. pose proof (N.div_mod' (n / 256) 256) as B.
  rewrite N.div_div in B by lia. change (256 * 256) with 65536 in B.
  pose proof (N.div_mod' (n / 65536) 256) as C. rewrite N.div_div in C by lia. change (65536 * 256) with 16777216 in C.
  assert (D : n / 16777216 < 256) by (apply N.div_lt_upper_bound; [lia|exact H]).
  rewrite (N.mod_small (n / 16777216)) by exact D. lia.
Qed.
Lemma to_bytes4_big n : 2 ^ 32 <= n -> to_bytes4 n = Err OverflowError.
Proof. intros H. unfold to_bytes4. destruct (N.ltb_spec n (2 ^ 32)); [lia|reflexivity]. Qed.

(** Reading. *)
Definition nonempty (b : bytes) : Prop := b <> [].
Definition closing (t : option exn) : list sockev := match t with None => [] | Some e => [Fail e] end.

Lemma recv_into_piece n c cs : 0 < n -> c <> [] ->
  exists d r, recv_into n (Data c :: cs) = (Ok d, match r with [] => cs | _ => Data r :: cs end) /\ c = d ++ r /\ d <> [] /\
  blen d = N.min n (blen c).
Proof.
  intros Hn Hc. cbn [recv_into]. set (k := N.to_nat (N.min n (blen c))).
  assert (K : (k <= length c)%nat) by (unfold k, blen; lia).
  assert (P : (0 < k)%nat) by (unfold k, blen; destruct c; [congruence|cbn [length]; lia]).
  exists (firstn k c), (skipn k c). csplit.
  - destruct (skipn k c); reflexivity.
  - symmetry. apply firstn_skipn.
  - intros E. apply (f_equal (@length N)) in E. rewrite firstn_length in E. cbn in E. lia.
  - unfold blen at 1. rewrite firstn_length_le by auto. unfold k. lia.
Qed.

Lemma recv_loop_data : forall f l n buf t, Forall nonempty l -> (length l + 1 < f)%nat -> blen buf <= n ->
  if n <=? blen buf + blen (concat l) then
    exists l', recv_loop f n buf (map Data l ++ closing t) = (Ok (buf ++ firstn (N.to_nat (n - blen buf)) (concat l)), map Data l' ++ closing t) /\
    concat l' = skipn (N.to_nat (n - blen buf)) (concat l) /\ Forall nonempty l'
  else match t with
       | None => recv_loop f n buf (map Data l ++ closing t) = (Ok (buf ++ concat l), [])
       | Some e => recv_loop f n buf (map Data l ++ closing t) = (Err e, [])
       end.
Proof.
  induction f as [|f IH]; [lia|]. intros l n buf t NE LF B. cbn [recv_loop].
  destruct (N.ltb_spec (blen buf) n) as [L|L].
  - destruct l as [|c l].
    + cbn [concat map app]. change (blen []) with 0. rewrite N.add_0_r. destruct (N.leb_spec n (blen buf)); [lia|].
      destruct t as [e|]; cbn; [reflexivity|]. now rewrite app_nil_r.
    + inversion NE as [|? ? Hc NE']; subst. cbn [map app].
      destruct (@recv_into_piece (n - blen buf) c (map Data l ++ closing t)) as (d & r & E & EQ & ND & LD); [lia|auto|].
      rewrite E. destruct d as [|x d]; [congruence|]. set (D := x :: d) in *.
      assert (LC : blen (concat (c :: l)) = blen c + blen (concat l)) by (cbn [concat]; apply blen_app).
      destruct r as [|y r].
      * assert (CD : c = D) by (rewrite EQ; apply app_nil_r).
        assert (BB : blen (buf ++ D) <= n) by (rewrite blen_app; lia).
        cbn [length] in LF.
        specialize (IH l n (buf ++ D) t NE' ltac:(lia) BB). rewrite blen_app in IH. rewrite LC, CD.
        replace (blen buf + (blen D + blen (concat l))) with (blen buf + blen D + blen (concat l)) by lia.
        destruct (n <=? blen buf + blen D + blen (concat l)).
        -- destruct IH as (l' & E' & C' & N'). exists l'. rewrite E'.
           assert (X : (N.to_nat (n - blen buf) = length D + N.to_nat (n - (blen buf + blen D)))%nat) by (unfold blen in *; lia).
           cbn [concat]. rewrite X. rewrite firstn_app_2. rewrite skipn_app.
           replace (length D + N.to_nat (n - (blen buf + blen D)) - length D)%nat with (N.to_nat (n - (blen buf + blen D))) by lia.
           rewrite skipn_all2 by lia. rewrite <- app_assoc. auto.
        -- destruct t as [e|]; [exact IH|]. rewrite IH. cbn [concat]. now rewrite <- app_assoc.
      * set (R := y :: r) in *.
        assert (LT : blen D < blen c) by (rewrite EQ, blen_app; unfold R, blen; cbn [length]; lia).
        assert (DN : blen D = n - blen buf) by lia.
        destruct (N.leb_spec n (blen buf + blen (concat (c :: l)))); [|lia].
        exists (R :: l). destruct f as [|f']; [lia|]. cbn [recv_loop].
        assert (BE : blen (buf ++ D) = n) by (rewrite blen_app; lia). rewrite BE, N.ltb_irrefl.
        cbn [concat]. rewrite EQ, <- app_assoc.
        replace (N.to_nat (n - blen buf)) with (length D + 0)%nat by (unfold blen in *; lia).
        rewrite firstn_app_2, skipn_app, skipn_all2 by lia. cbn [firstn].
        replace (length D + 0 - length D)%nat with 0%nat by lia. cbn [skipn app]. rewrite app_nil_r. csplit; auto.
        constructor; auto. unfold nonempty, R. discriminate.
  - assert (n = blen buf) by lia. subst n. destruct (N.leb_spec (blen buf) (blen buf + blen (concat l))); [|lia].
    exists l. rewrite N.sub_diag. cbn. rewrite app_nil_r. auto.
Qed.
Lemma closing_len t : (length (closing t) <= 1)%nat.
Proof. destruct t; cbn; lia. Qed.
Lemma recv_loop_more : forall f n buf cs g, (length cs + 1 < f)%nat -> (f <= g)%nat -> recv_loop g n buf cs = recv_loop f n buf cs.
Proof.
  induction f as [|f IH]; [lia|]. intros n buf cs g L G. destruct g as [|g]; [lia|]. cbn [recv_loop].
  destruct (blen buf <? n) eqn:LB; [|reflexivity]. destruct cs as [|[c|e] cs]; try reflexivity.
  cbn [recv_into]. cbn [length] in L. set (k := N.to_nat (N.min (n - blen buf) (blen c))).
  destruct (firstn k c) as [|x d] eqn:F; [reflexivity|]. destruct (skipn k c) as [|y r] eqn:K.
  - apply IH; lia.
  - assert (X : blen (x :: d) = n - blen buf).
    { rewrite <- F. unfold blen at 1. rewrite firstn_length. assert (k < length c)%nat.
      { destruct (Nat.lt_ge_cases k (length c)); auto. rewrite skipn_all2 in K by auto. discriminate. }
      unfold k in *. unfold blen in *. lia. }
    destruct f as [|f]; [lia|]. destruct g as [|g]; [lia|]. cbn [recv_loop]. rewrite blen_app, X.
    apply N.ltb_lt in LB. replace (blen buf + (n - blen buf)) with n by lia. now rewrite N.ltb_irrefl.
Qed.
Lemma recv_data l n t : Forall nonempty l ->
  if n <=? blen (concat l) then
    exists l', recv n (map Data l ++ closing t) = (Ok (firstn (N.to_nat n) (concat l)), map Data l' ++ closing t) /\
    concat l' = skipn (N.to_nat n) (concat l) /\ Forall nonempty l'
  else recv n (map Data l ++ closing t) = (match t with None => Ok (concat l) | Some e => Err e end, []).
Proof.
  intros NE. set (f := S (S (length (map Data l ++ closing t)))).
  assert (F : (length l + 1 < f)%nat) by (unfold f; rewrite app_length, map_length; lia).
  pose proof (@recv_loop_data f l n [] t NE F ltac:(unfold blen; cbn; lia)) as H.
  fold f in H. unfold recv. fold f. change (blen []) with 0 in H. rewrite N.add_0_l, N.sub_0_r in H. cbn [app] in H.
  destruct (n <=? blen (concat l)); [exact H|]. destruct t; exact H.
Qed.


(** What is read comes off the socket: enough iterations are enough. *)
Lemma recv_loop_off : forall f n buf cs d cs', recv_loop f n buf cs = (Ok d, cs') ->
  (length (sockdata cs') + length d <= length buf + length (sockdata cs))%nat.
Proof.
  induction f as [|f IH]; intros n buf cs d cs' H; [discriminate|]. cbn [recv_loop] in H.
  destruct (blen buf <? n); [|injection H as <- <-; lia].
  destruct cs as [|[c|e] cs]; cbn [recv_into] in H; [injection H as <- <-; lia| |discriminate].
  set (k := N.to_nat (N.min (n - blen buf) (blen c))) in *.
  assert (X : (length c = length (firstn k c) + length (skipn k c))%nat) by (rewrite <- app_length, firstn_skipn; auto).
  change (sockdata (Data c :: cs)) with (c ++ sockdata cs). rewrite app_length.
  destruct (firstn k c) as [|x p].
  - destruct (skipn k c) as [|y r]; injection H as <- <-; [lia|]. change (sockdata (Data (y :: r) :: cs)) with ((y :: r) ++ sockdata cs). rewrite app_length. lia.
  - destruct (skipn k c) as [|y r]; apply IH in H; rewrite app_length in H; [lia|].
    change (sockdata (Data (y :: r) :: cs)) with ((y :: r) ++ sockdata cs) in H. rewrite app_length in H. lia.
Qed.
Lemma recv_off n cs d cs' : recv n cs = (Ok d, cs') -> (length (sockdata cs') + length d <= length (sockdata cs))%nat.
Proof. intros H. apply recv_loop_off in H. cbn in H. lia. Qed.

Section H.
Variable M : Type.
Variable loads : bytes -> res M.
Variable raises : list M -> M -> option exn.
Notation handler := (handler loads raises).

Lemma handler_enough : forall f seen cs g, (length (sockdata cs) < f)%nat -> (f <= g)%nat -> handler g seen cs = handler f seen cs.
Proof.
  induction f as [|f IH]; [lia|]. intros seen cs g L G. destruct g as [|g]; [lia|]. cbn [QueueModel.handler].
  destruct (recv 4 cs) as ([b|e], cs1) eqn:R; [|reflexivity]. destruct b as [|x b]; [reflexivity|].
  apply recv_off in R. cbn [length] in R.
  destruct (recv (from_bytes (x :: b)) cs1) as ([d|e], cs2) eqn:R2; [|reflexivity]. apply recv_off in R2.
  destruct (loads d) as [o|e]; [|reflexivity]. destruct (raises seen o); [reflexivity|]. f_equal. apply IH; lia.
Qed.
(** The closed callback runs exactly once, after everything else. *)
Lemma handler_closed_once : forall f seen cs, exists ms x, handler f seen cs = map (@CbMsg M) ms ++ [CbClosed x].
Proof.
  induction f as [|f IH]; intros seen cs; cbn [QueueModel.handler].
  - exists [], (Some EFuel). reflexivity.
  - destruct (recv 4 cs) as ([b|e], cs1); [|exists []; eexists; reflexivity]. destruct b as [|x b]; [exists []; eexists; reflexivity|].
    destruct (recv _ cs1) as ([d|e], cs2); [|exists []; eexists; reflexivity].
    destruct (loads d) as [o|e]; [|exists []; eexists; reflexivity].
    destruct (raises seen o) as [e|]; [exists [o]; eexists; reflexivity|].
    destruct (IH (seen ++ [o]) cs2) as (ms & y & E). rewrite E. exists (o :: ms), y. reflexivity.
Qed.

Variable dumps : M -> bytes.
Variable Hcodec : forall m, loads (dumps m) = Ok m.
Variable Hprefix : forall m p q, dumps m = p ++ q -> q <> [] -> exists e, loads p = Err e /\ e <> CancelledError.
Variable Hempty : exists e, loads [] = Err e /\ e <> CancelledError.
Variable Hcb : forall l m, raises l m = None.

(** How the connection ended, seen from a point between or inside messages. *)
Definition closed_with (t : option exn) (part : bytes) (x : option exn) : Prop :=
  match t with
  | None => x = None <-> part = []
  | Some CancelledError => x = None
  | Some e => x = Some e
  end.
Definition strict_part (part : bytes) (fs : list bytes) : Prop :=
  part = [] \/ exists f r q, fs = f :: r /\ f = part ++ q /\ q <> [].

Lemma send_ok m f : send dumps m = Ok f -> exists h, f = h ++ dumps m /\ length h = 4%nat /\ from_bytes h = blen (dumps m).
Proof.
  unfold send. destruct (N.lt_ge_cases (blen (dumps m)) (2 ^ 32)) as [L|L].
  - destruct (to_from L) as (h & E & A & B). rewrite E. intros H. injection H as <-. eauto.
  - rewrite to_bytes4_big by auto. discriminate.
Qed.
Lemma finish_with e x : finish e = @CbClosed M x -> closed_with (Some e) [] x /\ forall p, closed_with (Some e) p x.
Proof. unfold finish. intros H. injection H as <-. destruct e; cbn; auto. Qed.
Lemma finish_is e : exists x, @finish M e = CbClosed x /\ forall p, closed_with (Some e) p x.
Proof. unfold finish. eexists. split; [reflexivity|]. intros p. destruct e; cbn; auto. Qed.
Lemma finish_err e : e <> CancelledError -> @finish M e = CbClosed (Some e).
Proof. unfold finish. destruct e; congruence. Qed.

Lemma app_split {A} (a b c d : list A) : a ++ b = c ++ d -> (length a <= length c)%nat -> exists r, c = a ++ r /\ b = r ++ d.
Proof.
  revert c. induction a as [|x a IH]; intros c H L.
  - exists c. auto.
  - destruct c as [|y c]; [cbn in L; lia|]. cbn in *. injection H as -> H. destruct (IH c H ltac:(lia)) as (r & -> & ->). eauto.
Qed.

Lemma handler_cut : forall ms fs f seen b rest l t, mapM (send dumps) ms = Ok fs -> concat fs = b ++ rest ->
  concat l = b -> Forall nonempty l -> (length b < f)%nat ->
  exists done undone fd fu part x, ms = done ++ undone /\ fs = fd ++ fu /\ mapM (send dumps) done = Ok fd /\ b = concat fd ++ part /\
    strict_part part fu /\ handler f seen (map Data l ++ closing t) = map (@CbMsg M) done ++ [CbClosed x] /\ closed_with t part x.
Proof.
  induction ms as [|m ms IH]; intros fs f seen b rest l t E C L NE F.
  - injection E as <-. cbn in C. symmetry in C. apply app_eq_nil in C as (-> & ->). destruct f as [|f]; [lia|].
    assert (l = []) as -> by (destruct l as [|c l]; auto; inversion NE as [|? ? N1 N2]; subst; destruct c; [congruence|discriminate]).
    exists [], [], [], []. destruct t as [e|].
    + destruct (finish_is e) as (x & FX & CX). exists [], x. csplit; auto; [now left|]. cbn. now rewrite FX.
    + exists [], None. csplit; auto; [now left|]. cbn. split; auto.
  - rewrite mapM_cons in E. destruct (send dumps m) as [fr|] eqn:SE; [|discriminate]. cbn [bind] in E.
    destruct (mapM (send dumps) ms) as [fs'|] eqn:ME; [|discriminate]. injection E as <-.
    destruct (send_ok _ SE) as (h & FR & H4 & HV). cbn [concat] in C.
    destruct f as [|f]; [lia|]. cbn [QueueModel.handler].
    pose proof (@recv_data l 4 t NE) as R. rewrite L in R. destruct (N.leb_spec 4 (blen b)) as [B4|B4].
    + (* the header is there *)
      destruct R as (l1 & R & L1 & N1). rewrite R.
      assert (LB : (4 <= length b)%nat) by (unfold blen in B4; lia).
      rewrite FR, <- app_assoc in C. destruct (app_split _ _ _ _ C ltac:(lia)) as (b1 & BE & C1).
      change (N.to_nat 4) with 4%nat in *.
      assert (F4 : firstn 4 b = h) by (rewrite BE; rewrite <- H4; rewrite firstn_app, Nat.sub_diag, firstn_all; cbn; apply app_nil_r).
      assert (S4 : skipn 4 b = b1) by (rewrite BE; rewrite <- H4; rewrite skipn_app, Nat.sub_diag, skipn_all; reflexivity).
      rewrite F4. rewrite S4 in L1.
      destruct h as [|h0 h]; [discriminate|]. set (hh := h0 :: h) in *.
      pose proof (@recv_data l1 (from_bytes hh) t N1) as R1. rewrite L1, HV in R1. rewrite HV.
      destruct (N.leb_spec (blen (dumps m)) (blen b1)) as [B1|B1].
      * (* the whole message *)
        destruct R1 as (l2 & R1 & L2 & N2). rewrite R1.
        assert (LD : (length (dumps m) <= length b1)%nat) by (unfold blen in B1; lia).
        destruct (app_split _ _ _ _ C1 LD) as (b2 & BE2 & C2).
        assert (TN : N.to_nat (blen (dumps m)) = length (dumps m)) by (unfold blen; lia).
        rewrite TN in *.
        assert (F5 : firstn (length (dumps m)) b1 = dumps m) by (rewrite BE2, firstn_app, Nat.sub_diag, firstn_all; cbn; apply app_nil_r).
        assert (S5 : skipn (length (dumps m)) b1 = b2) by (rewrite BE2, skipn_app, Nat.sub_diag, skipn_all; reflexivity).
        rewrite F5, Hcodec, Hcb. rewrite S5 in L2.
        assert (LF : (length b2 < f)%nat) by (rewrite BE, BE2, !app_length in F; lia).
        destruct (IH fs' f (seen ++ [m]) b2 rest l2 t eq_refl C2 L2 N2 LF) as (dn & un & fd & fu & part & x & M1 & M2 & M3 & M4 & M5 & M6 & M7).
        exists (m :: dn), un, (fr :: fd), fu, part, x. csplit; auto.
        -- cbn. congruence.
        -- cbn. congruence.
        -- rewrite mapM_cons, SE. cbn [bind]. rewrite M3. reflexivity.
        -- cbn [concat]. rewrite BE, BE2, M4, FR, <- !app_assoc. reflexivity.
        -- rewrite M6. reflexivity.
      * (* cut inside the payload *)
        rewrite R1. assert (LD : (length b1 <= length (dumps m))%nat) by (unfold blen in B1; lia).
        destruct (app_split _ _ _ _ (eq_sym C1) LD) as (q & DE & C2).
        assert (QN : q <> []) by (intros ->; rewrite app_nil_r in DE; rewrite DE in B1; lia).
        assert (SP : strict_part b (fr :: fs')).
        { right. exists fr, fs', q. csplit; auto. rewrite BE, FR, DE, <- app_assoc. reflexivity. }
        assert (BN : b <> []) by (rewrite BE; discriminate).
        exists [], (m :: ms), [], (fr :: fs'), b. destruct t as [e|].
        -- destruct (finish_is e) as (x & FX & CX). exists x. csplit; auto. cbn [map app]. now rewrite FX.
        -- destruct (@Hprefix m b1 q DE QN) as (e & LE & NC). exists (Some e). csplit; auto.
           ++ cbn [map app]. rewrite LE, finish_err by auto. reflexivity.
           ++ cbn. split; [discriminate|congruence].
    + (* cut inside or before the header *)
      rewrite R. assert (LB : (length b < 4)%nat) by (unfold blen in B4; lia).
      rewrite FR, <- app_assoc in C. destruct (app_split _ _ _ _ (eq_sym C) ltac:(lia)) as (q & HE & C1).
      assert (QN : q <> []) by (intros ->; rewrite app_nil_r in HE; rewrite HE in H4; lia).
      assert (SP : strict_part b (fr :: fs')).
      { right. exists fr, fs', (q ++ dumps m). csplit; auto; [rewrite FR, HE, <- app_assoc; reflexivity|]. destruct q; [congruence|discriminate]. }
      exists [], (m :: ms), [], (fr :: fs'), b. destruct t as [e|].
      * destruct (finish_is e) as (x & FX & CX). exists x. csplit; auto. cbn [map app]. now rewrite FX.
      * destruct b as [|x b'] eqn:BB.
        -- exists None. csplit; auto. cbn. split; auto.
        -- destruct Hempty as (e & LE & NC). exists (Some e). csplit; auto.
           ++ assert (R0 : forall n, recv n [] = (Ok [], [])) by (intros n; unfold recv; cbn; destruct n; reflexivity).
              rewrite R0, LE, finish_err by auto. reflexivity.
           ++ cbn. split; discriminate.
Qed.
Lemma frames_nonempty : forall ms fs, mapM (send dumps) ms = Ok fs -> concat fs = [] -> ms = [].
Proof.
  intros [|m ms] fs E C; auto. rewrite mapM_cons in E. destruct (send dumps m) as [fr|] eqn:SE; [|discriminate]. cbn [bind] in E.
  destruct (mapM _ ms); [|discriminate]. injection E as <-. destruct (send_ok _ SE) as (h & FR & H4 & _). cbn in C. rewrite FR in C.
  destruct h; discriminate.
Qed.
End H.
