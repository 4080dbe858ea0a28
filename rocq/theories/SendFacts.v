(** Writing with deadlines: C107. *)
From Coq Require Import String ZArith List Bool Lia.
From Coq Require Import ZifyBool.
From Verif Require Import Bytes BytesFacts GoVal GoErr Encoder Decoder SpecPack SpecValues SpecCodec FrameFacts LinkFacts WatchFacts Errors Timing SpecTime.
Import ListNotations.
Open Scope Z_scope.

(** ** What a Write does *)

Definition went {E} (r : option E) : Z := match r with None => 0 | Some _ => 1 end.

(** [q] was taken on the way from [s] to [s'], which ended with [r]. *)
Definition wrote (T : Z) (s : sender) (q : bytes) (s' : sender) (r : option gerr) : Prop :=
  t_out s' = t_out s ++ q
  /\ t_now s <= t_now s' <= t_now s + T * (zlen q + went r)
  /\ t_now s' <= t_now s + T * (Z.of_nat (t_calls s') - Z.of_nat (t_calls s)) /\ (t_calls s <= t_calls s')%nat
  /\ exists used, t_room s = used ++ t_room s' /\ length used = length q
     /\ (r = None -> t_now s' = latest (t_now s) used) /\ (r <> None -> t_now s + T <= t_now s' /\ no_room (t_room s') (t_now s')).
Lemma wrote_nothing T s : wrote T s [] s None.
Proof. split; [now rewrite app_nil_r|]. cbn. split; [lia|]. split; [lia|]. split; [lia|]. now exists []. Qed.
Lemma wrote_then T s q s1 q' s2 r : 0 < T -> wrote T s q s1 None -> wrote T s1 q' s2 r -> wrote T s (q ++ q') s2 r.
Proof.
  intros HT (A1 & A2 & A3 & A4 & u & A5 & A6 & A7 & _) (B1 & B2 & B3 & B4 & u' & B5 & B6 & B7 & B8). cbn [went] in *. split; [rewrite B1, A1; now rewrite app_assoc|].
  rewrite zlen_app. split; [nia|]. split; [nia|]. split; [lia|].
  exists (u ++ u'). rewrite A5, B5, app_assoc, !app_length. split; [reflexivity|]. split; [lia|]. split.
  - intros X. rewrite (B7 X), (A7 eq_refl). unfold latest. now rewrite fold_left_app.
  - intros X. destruct (B8 X) as [B9 B10]. split; [lia|exact B10].
Qed.
(** Another error does not matter. *)
Lemma wrote_err T s q s' e e' : wrote T s q s' (Some e) -> wrote T s q s' (Some e').
Proof.
  intros (A & B & C & D & u & E & F & _ & G). split; [exact A|]. split; [exact B|]. split; [exact C|]. split; [exact D|].
  exists u. split; [exact E|]. split; [exact F|]. split; [discriminate|]. intros _. apply G. discriminate.
Qed.

Lemma taking_facts D p : forall now room ok t room' q, now <= D -> taking D now p room = (ok, t, room', q) ->
  now <= t <= D /\ (exists used, room = used ++ room' /\ length used = length q /\ (ok = true -> t = latest now used) /\ (ok = false -> t = D /\ no_room room' D))
  /\ (ok = true -> q = p /\ (p = [] -> t = now)) /\ (ok = false -> (length q < length p)%nat /\ q = firstn (length q) p).
Proof.
  induction p as [|b p IH]; intros now room ok t room' q Hn; cbn [taking].
  - intros [= <- <- <- <-]. split; [lia|]. split; [exists []; now repeat split|]. now split.
  - destruct room as [|a room].
    + intros [= <- <- <- <-]. split; [lia|]. split; [exists []; repeat split; (discriminate || assumption || exact I)|]. split; [discriminate|]. cbn. split; [lia|reflexivity].
    + destruct (Z.leb_spec a D) as [Ha|Ha].
      * destruct (taking D (Z.max now a) p room) as [[[ok1 t1] r1] q1] eqn:E. intros [= <- <- <- <-].
        assert (Hm : Z.max now a <= D) by lia. destruct (IH _ _ _ _ _ _ Hm E) as (H1 & (u & H2 & H3 & H8 & H9) & H4 & H5). split; [lia|]. split; [|split].
        -- exists (a :: u). cbn. rewrite H2, H3. repeat split; tauto.
        -- intros X. destruct (H4 X) as [-> _]. split; [reflexivity|discriminate].
        -- intros X. destruct (H5 X) as [H6 H7]. cbn. split; [lia|]. now f_equal.
      * intros [= <- <- <- <-]. split; [lia|]. split; [exists []; repeat split; (discriminate || assumption || exact I)|]. split; [discriminate|]. cbn. split; [lia|reflexivity].
Qed.
(** A Write within time [T], and the budgeted link that carries just what it takes. *)
Lemma write_facts T s p s' r : 0 < T -> timed_write T s p = (s', r) -> exists q, wrote T s q s' r
  /\ (forall j, r = None \/ j = O -> w_write (mkWriter (t_out s) (Some (length q + j)%nat)) p = (mkWriter (t_out s') (Some j), r)).
Proof.
  intros HT. unfold timed_write. destruct (Z.leb_spec T 0); [lia|].
  destruct (taking (t_now s + T) (t_now s) p (t_room s)) as [[[ok t] room] q] eqn:E. intros [= <- <-].
  assert (Hm : t_now s <= t_now s + T) by lia. destruct (taking_facts _ _ _ _ _ _ _ _ Hm E) as (H1 & (u & U1 & U2 & U3 & U4) & H3 & H4). exists q. split.
  - unfold wrote. cbn [t_out t_now t_calls t_room]. split; [reflexivity|]. split; [|split; [lia|split; [lia|exists u]]].
    2:{ split; [exact U1|]. split; [exact U2|]. destruct ok; split; intros X; try (now destruct X); try discriminate X; auto. destruct (U4 eq_refl) as [-> U5]. split; [lia|exact U5]. }
    destruct ok; cbn [went]; [|unfold zlen; nia].
    destruct (H3 eq_refl) as [-> Hp]. destruct p as [|b p]; [rewrite Hp by reflexivity; cbn; lia|]. unfold zlen. cbn [length]. nia.
  - intros j Hj. unfold w_write. cbn [w_left w_out]. destruct ok.
    + destruct (H3 eq_refl) as [-> _]. destruct (Nat.leb_spec (length p) (length p + j)); [|lia]. do 3 f_equal. lia.
    + destruct Hj as [Hj| ->]; [discriminate|]. destruct (H4 eq_refl) as [H5 H6]. destruct (Nat.leb_spec (length p) (length q + 0)); [lia|].
      rewrite Nat.add_0_r, <- H6. reflexivity.
Qed.

(** ** The Encoder on top *)

Definition on (out : bytes) (k : nat) (buf : bytes) (cs : Z) : encoder := mkEncoder (mkWriter out (Some k)) buf cs.
(** [e] goes to [e'] with [r]; the encoder on the link that carries just what was taken does the same. *)
Definition mirrors (T : Z) (e : timed_encoder) (e' : timed_encoder) (r : option gerr) (f : encoder -> encoder * option gerr) : Prop :=
  te_chunk e' = te_chunk e /\ exists q, wrote T (te_w e) q (te_w e') r
  /\ forall j, r = None \/ j = O -> f (on (t_out (te_w e)) (length q + j) (te_buf e) (te_chunk e)) = (on (t_out (te_w e')) j (te_buf e') (te_chunk e'), r).

Lemma enc_write_facts T e p e' r : 0 < T -> timed_enc_write T e p = (e', r) -> mirrors T e e' r (fun x => enc_write x p).
Proof.
  intros HT. unfold timed_enc_write, mirrors, enc_write, on. destruct e as [w buf cs]. cbn [te_w te_buf te_chunk e_w e_buf e_chunk].
  destruct (zlen (buf ++ p) >=? cs).
  - destruct (timed_write T w (be 2 cs)) as [w1 r1] eqn:E1. destruct (write_facts _ _ _ _ _ HT E1) as (q1 & W1 & M1).
    destruct r1 as [e1|].
    + intros [= <- <-]. split; [reflexivity|]. exists q1. cbn [te_w te_buf te_chunk]. split; [exact (wrote_err _ _ _ _ _ _ W1)|].
      intros j [Hj| ->]; [discriminate|]. rewrite (M1 O (or_intror eq_refl)). reflexivity.
    + destruct (timed_write T w1 (firstn (Z.to_nat cs) (buf ++ p))) as [w2 r2] eqn:E2. destruct (write_facts _ _ _ _ _ HT E2) as (q2 & W2 & M2).
      pose proof (wrote_then _ _ _ _ _ _ _ HT W1 W2) as W.
      destruct r2 as [e2|]; intros [= <- <-]; (split; [reflexivity|]); exists (q1 ++ q2); cbn [te_w te_buf te_chunk].
      * split; [exact (wrote_err _ _ _ _ _ _ W)|]. intros j [Hj| ->]; [discriminate|].
        rewrite app_length, Nat.add_0_r, (M1 _ (or_introl eq_refl)). rewrite <- (Nat.add_0_r (length q2)), (M2 _ (or_intror eq_refl)). reflexivity.
      * split; [exact W|]. intros j _. rewrite app_length, <- Nat.add_assoc, (M1 _ (or_introl eq_refl)), (M2 _ (or_introl eq_refl)). reflexivity.
  - intros [= <- <-]. split; [reflexivity|]. exists []. cbn [te_w te_buf te_chunk length]. split; [apply wrote_nothing|]. intros j _. reflexivity.
Qed.
Lemma mirrors_then T e e1 e2 r f g : 0 < T -> mirrors T e e1 None f -> mirrors T e1 e2 r g ->
  mirrors T e e2 r (fun x => let '(x1, r1) := f x in match r1 with Some err => (x1, Some err) | None => g x1 end).
Proof.
  intros HT (A0 & q1 & A1 & A2) (B0 & q2 & B1 & B2). split; [congruence|]. exists (q1 ++ q2). split; [exact (wrote_then _ _ _ _ _ _ _ HT A1 B1)|].
  intros j Hj. rewrite app_length, <- Nat.add_assoc, (A2 _ (or_introl eq_refl)). exact (B2 j Hj).
Qed.
Lemma mirrors_id T e : mirrors T e e None (fun x => (x, None)).
Proof. split; [reflexivity|]. exists []. split; [apply wrote_nothing|]. intros j _. reflexivity. Qed.
Lemma mirrors_stop T e e1 err f g : mirrors T e e1 (Some err) f ->
  mirrors T e e1 (Some err) (fun x => let '(x1, r1) := f x in match r1 with Some err => (x1, Some err) | None => g x1 end).
Proof. intros (A0 & q1 & A1 & A2). split; [exact A0|]. exists q1. split; [exact A1|]. intros j Hj. now rewrite (A2 j Hj). Qed.
Lemma run_writes_facts T ws : 0 < T -> forall e e' r, timed_run_writes T e ws = (e', r) -> mirrors T e e' r (fun x => run_writes x ws).
Proof.
  intros HT. induction ws as [|p ws IH]; intros e e' r; cbn [timed_run_writes run_writes].
  - intros [= <- <-]. apply mirrors_id.
  - destruct (timed_enc_write T e p) as [e1 r1] eqn:E1. apply enc_write_facts in E1; [|exact HT]. destruct r1 as [err|].
    + intros [= <- <-]. exact (mirrors_stop _ _ _ _ _ (fun x => run_writes x ws) E1).
    + intros E. exact (mirrors_then _ _ _ _ _ _ _ HT E1 (IH _ _ _ E)).
Qed.
Lemma flush_facts T e e' r : 0 < T -> timed_flush T e = (e', r) -> mirrors T e e' r flush.
Proof.
  intros HT. unfold timed_flush. destruct e as [w buf cs]. cbn [te_w te_buf te_chunk].
  assert (F : forall w0 buf0, (let '(w', r0) := timed_write T w0 EndMessage in
      match r0 with Some err => (mkTimed w' buf0 cs, Some (EWrap (Some err) 5)) | None => (mkTimed w' [] cs, None) end) = (e', r) ->
     te_chunk e' = cs /\ exists q, wrote T w0 q (te_w e') r /\ forall j, r = None \/ j = O ->
       (let '(w', r0) := w_write (mkWriter (t_out w0) (Some (length q + j)%nat)) EndMessage in
        match r0 with Some err => (mkEncoder w' buf0 cs, Some (EWrap (Some err) 5)) | None => (mkEncoder w' [] cs, None) end)
       = (on (t_out (te_w e')) j (te_buf e') (te_chunk e'), r)).
  { intros w0 buf0. destruct (timed_write T w0 EndMessage) as [w1 r1] eqn:E1. destruct (write_facts _ _ _ _ _ HT E1) as (q1 & W1 & M1).
    destruct r1 as [e1|]; intros [= <- <-]; (split; [reflexivity|]); exists q1; cbn [te_w te_buf te_chunk].
    - split; [exact (wrote_err _ _ _ _ _ _ W1)|]. intros j [Hj| ->]; [discriminate|]. now rewrite (M1 O (or_intror eq_refl)).
    - split; [exact W1|]. intros j _. now rewrite (M1 j (or_introl eq_refl)). }
  unfold mirrors, flush, on. cbn [te_w te_buf te_chunk e_w e_buf e_chunk].
  destruct (zlen buf >? 0); [|intros E; exact (F _ _ E)].
  destruct (timed_write T w (be 2 (uint16 (zlen buf)))) as [w1 r1] eqn:E1. destruct (write_facts _ _ _ _ _ HT E1) as (q1 & W1 & M1). destruct r1 as [e1|].
  - intros [= <- <-]. split; [reflexivity|]. exists q1. cbn [te_w te_buf te_chunk]. split; [exact (wrote_err _ _ _ _ _ _ W1)|].
    intros j [Hj| ->]; [discriminate|]. now rewrite (M1 O (or_intror eq_refl)).
  - destruct (timed_write T w1 buf) as [w2 r2] eqn:E2. destruct (write_facts _ _ _ _ _ HT E2) as (q2 & W2 & M2).
    pose proof (wrote_then _ _ _ _ _ _ _ HT W1 W2) as W. destruct r2 as [e2|].
    + intros [= <- <-]. split; [reflexivity|]. exists (q1 ++ q2). cbn [te_w te_buf te_chunk]. split; [exact (wrote_err _ _ _ _ _ _ W)|].
      intros j [Hj| ->]; [discriminate|]. rewrite app_length, Nat.add_0_r, (M1 _ (or_introl eq_refl)).
      rewrite <- (Nat.add_0_r (length q2)), (M2 _ (or_intror eq_refl)). reflexivity.
    + intros E. destruct (F _ _ E) as (C & q3 & W3 & M3). split; [exact C|]. exists ((q1 ++ q2) ++ q3).
      split; [exact (wrote_then _ _ _ _ _ _ _ HT W W3)|]. intros j Hj.
      rewrite !app_length, <- !Nat.add_assoc, (M1 _ (or_introl eq_refl)), (M2 _ (or_introl eq_refl)). exact (M3 j Hj).
Qed.
(** Encoding with deadlines is encoding on a link that carries what the peer took. *)
Lemma encode_mirrors T v cs s x s' r : 0 < T -> timed_encode T v cs s x = (s', r) -> exists q r0, wrote T s q s' r0
  /\ (r0 = r \/ r0 = None /\ snd (encode v x) = r)
  /\ exists e', encoder_encode v (encoder_on (t_out s) (Some (length q)) cs) x = (e', r) /\ w_out (e_w e') = t_out s'.
Proof.
  intros HT. unfold timed_encode, encoder_encode, encoder_on, new_encoder. destruct (encode v x) as [ws fin].
  destruct (timed_run_writes T (mkTimed s [] cs) ws) as [e1 r1] eqn:E1. apply run_writes_facts in E1; [|exact HT].
  pose proof E1 as (C1 & q1 & W1 & M1). cbn [te_w te_buf te_chunk] in *. unfold on in M1. destruct r1 as [err|].
  - intros [= <- <-]. exists q1, (Some err). split; [exact W1|]. split; [now left|]. eexists. specialize (M1 O (or_intror eq_refl)). rewrite Nat.add_0_r in M1. rewrite M1. now split.
  - destruct fin as [err|].
    + intros [= <- <-]. exists q1, None. split; [exact W1|]. split; [now right|].
      eexists. specialize (M1 O (or_intror eq_refl)). rewrite Nat.add_0_r in M1. rewrite M1. now split.
    + destruct (timed_flush T e1) as [e2 r2] eqn:E2. apply flush_facts in E2; [|exact HT]. destruct E2 as (C2 & q2 & W2 & M2). intros [= <- <-].
      exists (q1 ++ q2), r2. split; [exact (wrote_then _ _ _ _ _ _ _ HT W1 W2)|]. split; [now left|]. rewrite app_length, (M1 _ (or_introl eq_refl)).
      eexists. specialize (M2 O (or_intror eq_refl)). rewrite Nat.add_0_r in M2. unfold on in M2. rewrite M2. now split.
Qed.

(** What the wait is, whatever comes of it. *)
Lemma send_bound T v cs s x s' r : 0 < T -> timed_encode T v cs s x = (s', r) -> exists q, t_out s' = t_out s ++ q
  /\ t_now s <= t_now s' <= t_now s + T * (zlen q + match r with None => 0 | Some _ => 1 end)
  /\ t_now s' <= t_now s + T * (Z.of_nat (t_calls s') - Z.of_nat (t_calls s)).
Proof.
  intros HT E. destruct (encode_mirrors _ _ _ _ _ _ _ HT E) as (q & r0 & (A & B & C & _) & R & _). exists q. split; [exact A|].
  split; [|exact C]. destruct R as [->|[-> _]]; [exact B|]. cbn [went] in B. destruct r; nia.
Qed.
(** The message [w] goes out if there is room for each byte within [T]; otherwise it fails. *)
Lemma send_outcome T v cs s x w e s' r : 0 < T -> 0 <= cs -> snd (encode v x) = None ->
  encoder_encode v (encoder_on (t_out s) None cs) x = (e, None) -> w_out (e_w e) = t_out s ++ w ->
  timed_encode T v cs s x = (s', r) ->
  exists n, t_out s' = t_out s ++ firstn n w /\ t_room s' = skipn n (t_room s) /\ (n <= length (t_room s))%nat
  /\ (r = None -> n = length w /\ t_now s' = latest (t_now s) (firstn n (t_room s)))
  /\ (r <> None -> (n < length w)%nat /\ t_now s + T <= t_now s' /\ no_room (skipn n (t_room s)) (t_now s')).
Proof.
  intros HT Hcs Hs E0 Ew E. destruct (encode_mirrors _ _ _ _ _ _ _ HT E) as (q & r0 & (A & _ & _ & _ & u & U1 & U2 & U3 & U4) & R & e' & M1 & M2).
  assert (r0 = r) as -> by (destruct R as [R|[R1 R2]]; [exact R|congruence]).
  destruct (encode_dying v x (t_out s) (length q) cs Hcs Hs) as (w' & D1 & D2 & D3). rewrite M1 in D2, D3. cbn [fst snd] in D2, D3.
  rewrite D1 in E0. injection E0 as <-. cbn in Ew. apply app_inv_head in Ew. subst w'.
  assert (Eq : q = firstn (length q) w) by (rewrite <- M2, D2 in A; now apply app_inv_head in A).
  exists (length q). rewrite <- Eq. split; [exact A|]. rewrite U1, <- U2, skipn_app, firstn_app, skipn_all, firstn_all, Nat.sub_diag. cbn [skipn firstn app].
  rewrite app_nil_r, app_length. split; [reflexivity|]. split; [lia|]. split.
  - intros X. split; [|exact (U3 X)]. apply D3 in X. apply (f_equal (@length byte)) in Eq. rewrite firstn_length in Eq. rewrite U2. lia.
  - intros X. split; [|exact (U4 X)]. rewrite U2. destruct (Nat.ltb_spec (length q) (length w)) as [H|H]; [exact H|]. now destruct (X (proj2 D3 H)).
Qed.
Lemma latest_bound l : forall now m, now <= m -> Forall (fun a => a <= m) l -> now <= latest now l <= m.
Proof.
  unfold latest. induction l as [|a l IH]; intros now m Hn H; cbn [fold_left]; [lia|]. inversion H; subst. specialize (IH (Z.max now a) m ltac:(lia) ltac:(assumption)). lia.
Qed.
Lemma send_in_time T v cs s x w e : 0 < T -> 0 <= cs -> snd (encode v x) = None ->
  encoder_encode v (encoder_on (t_out s) None cs) x = (e, None) -> w_out (e_w e) = t_out s ++ w ->
  (length w <= length (t_room s))%nat -> Forall (fun a => a <= t_now s + T) (firstn (length w) (t_room s)) ->
  exists s', timed_encode T v cs s x = (s', None) /\ t_out s' = t_out s ++ w /\ t_now s <= t_now s' <= t_now s + T.
Proof.
  intros HT Hcs Hs E0 Ew Hl Hf. destruct (timed_encode T v cs s x) as [s' r] eqn:E.
  destruct (send_outcome _ _ _ _ _ _ _ _ _ HT Hcs Hs E0 Ew E) as (n & A & B & C & D & F). destruct r as [err|].
  - exfalso. destruct F as (F1 & F3 & F2); [discriminate|]. destruct (skipn n (t_room s)) as [|a l] eqn:Es.
    + apply (f_equal (@length Z)) in Es. rewrite skipn_length in Es. cbn in Es. lia.
    + cbn in F2. rewrite Forall_forall in Hf. specialize (Hf a). assert (In a (firstn (length w) (t_room s))); [|specialize (Hf H); lia].
      rewrite <- (firstn_skipn n (t_room s)), Es. rewrite firstn_app, firstn_length. apply in_or_app. right.
      replace (length w - Nat.min n (length (t_room s)))%nat with (S (length w - n - 1)) by lia. now left.
  - destruct (D eq_refl) as [-> D2]. exists s'. split; [reflexivity|]. rewrite firstn_all in A. split; [exact A|].
    rewrite D2. apply latest_bound; [lia|exact Hf].
Qed.

(** ** A peer that takes its time *)

Lemma taking_late T now : 0 < T -> forall p rest now', now <= now' <= now + T -> taking (now + T) now' p (repeat (now + T) (length p) ++ rest)
  = (true, match p with [] => now' | _ => now + T end, rest, p).
Proof.
  intros HT. induction p as [|b p IH]; intros rest now' Hn; cbn [taking repeat length app]; [reflexivity|].
  destruct (Z.leb_spec (now + T) (now + T)); [|lia]. rewrite IH by lia. replace (Z.max now' (now + T)) with (now + T) by lia. now destruct p.
Qed.
Lemma write_late T now rest out calls p : 0 < T -> p <> [] ->
  timed_write T (mkSender now (repeat (now + T) (length p) ++ rest) out calls) p = (mkSender (now + T) rest (out ++ p) (S calls), None).
Proof.
  intros HT Hp. unfold timed_write. cbn [t_now t_room t_out t_calls]. destruct (Z.leb_spec T 0); [lia|].
  rewrite taking_late by lia. now destruct p.
Qed.
Lemma be2_nonempty z : be 2 z <> [].
Proof. intros H. apply (f_equal (@length byte)) in H. rewrite be_length in H. discriminate. Qed.
(** For what [f] does there is room that makes it last one timeout for each of its [k] Writes. *)
Definition lasting (T : Z) (k : nat) (buf : bytes) (cs : Z) (buf' : bytes) (f : timed_encoder -> timed_encoder * option gerr) : Prop :=
  exists q, forall now rest out calls, exists room,
    f (mkTimed (mkSender now (room ++ rest) out calls) buf cs)
    = (mkTimed (mkSender (now + T * Z.of_nat k) rest (out ++ q) (calls + k)) buf' cs, None).
Lemma enc_write_late T cs buf p : 0 < T -> 1 <= cs -> exists k buf', lasting T k buf cs buf' (fun e => timed_enc_write T e p)
  /\ (buf ++ p <> [] -> (2 <= k)%nat \/ buf' <> []).
Proof.
  intros HT Hcs. unfold lasting, timed_enc_write. cbn [te_buf te_chunk te_w]. destruct (zlen (buf ++ p) >=? cs) eqn:G.
  - exists 2%nat, (skipn (Z.to_nat cs) (buf ++ p)). split; [|left; lia]. exists (be 2 cs ++ firstn (Z.to_nat cs) (buf ++ p)).
    intros now rest out calls. exists (repeat (now + T) (length (be 2 cs)) ++ repeat (now + T + T) (length (firstn (Z.to_nat cs) (buf ++ p)))).
    rewrite <- app_assoc, write_late by (exact HT || apply be2_nonempty). rewrite write_late; [|exact HT|].
    + do 2 f_equal. rewrite <- app_assoc. f_equal; lia.
    + intros X. apply (f_equal (@length byte)) in X. rewrite firstn_length in X. unfold zlen in G. cbn [length] in X. lia.
  - exists 0%nat, (buf ++ p). split; [|now right]. exists []. intros now rest out calls. exists []. cbn [app]. rewrite app_nil_r, Nat.add_0_r. do 2 f_equal. f_equal. lia.
Qed.
Lemma lasting_then T k k' buf cs buf1 buf2 f g : lasting T k buf cs buf1 f -> lasting T k' buf1 cs buf2 g ->
  lasting T (k + k') buf cs buf2 (fun e => let '(e1, r) := f e in match r with Some err => (e1, Some err) | None => g e1 end).
Proof.
  intros (q & A) (q' & B). exists (q ++ q'). intros now rest out calls.
  destruct (B (now + T * Z.of_nat k) rest (out ++ q) (calls + k)%nat) as (room' & B').
  destruct (A now (room' ++ rest) out calls) as (room & A'). exists (room ++ room'). rewrite <- app_assoc, A', B'. do 2 f_equal. rewrite <- app_assoc. f_equal; lia.
Qed.
Lemma run_writes_late T cs ws : 0 < T -> 1 <= cs -> forall buf, exists k buf', lasting T k buf cs buf' (fun e => timed_run_writes T e ws)
  /\ (buf ++ concat ws <> [] -> (2 <= k)%nat \/ buf' <> []).
Proof.
  intros HT Hcs. induction ws as [|p ws IH]; intros buf.
  - exists 0%nat, buf. split; [|cbn; rewrite app_nil_r; now right]. exists []. intros now rest out calls. exists []. cbn. rewrite app_nil_r, Nat.add_0_r. do 3 f_equal. lia.
  - destruct (enc_write_late T cs buf p HT Hcs) as (k1 & b1 & L1 & N1). destruct (IH b1) as (k2 & b2 & L2 & N2). exists (k1 + k2)%nat, b2.
    split; [exact (lasting_then _ _ _ _ _ _ _ _ _ L1 L2)|]. cbn [concat]. intros X. destruct b1 as [|x b1].
    + destruct (concat ws) as [|y l]; [|destruct N2; [discriminate|left; lia|now right]].
      rewrite app_nil_r in X. destruct (N1 X) as [H|H]; [left; lia|now destruct H].
    + destruct N2; [discriminate|left; lia|now right].
Qed.
Lemma flush_late T cs buf : 0 < T -> exists k, lasting T k buf cs [] (timed_flush T) /\ (1 <= k)%nat /\ (buf <> [] -> (3 <= k)%nat).
Proof.
  intros HT. unfold lasting, timed_flush. cbn [te_buf te_chunk te_w]. destruct (zlen buf >? 0) eqn:G.
  - exists 3%nat. split; [|split; [lia|lia]]. exists (be 2 (uint16 (zlen buf)) ++ buf ++ EndMessage). intros now rest out calls.
    exists (repeat (now + T) (length (be 2 (uint16 (zlen buf)))) ++ repeat (now + T + T) (length buf) ++ repeat (now + T + T + T) (length EndMessage)).
    rewrite <- !app_assoc, write_late by (exact HT || apply be2_nonempty). rewrite write_late; [|exact HT|intros ->; discriminate G].
    rewrite write_late by (exact HT || discriminate). do 2 f_equal. rewrite <- !app_assoc. f_equal; lia.
  - assert (buf = []) as -> by (destruct buf; [reflexivity|unfold zlen in G; cbn [length] in G; lia]). exists 1%nat. split; [|split; [lia|congruence]].
    exists EndMessage. intros now rest out calls. exists (repeat (now + T) (length EndMessage)). rewrite write_late by (exact HT || discriminate).
    do 2 f_equal. f_equal; lia.
Qed.
Lemma enc_nonempty p : snd (enc p) = None -> concat (fst (enc p)) <> [].
Proof.
  assert (H : forall a b, snd (w_then a b) = None -> (snd a = None -> concat (fst a) <> []) -> concat (fst (w_then a b)) <> []).
  { intros a b. unfold w_then. destruct a as [wa [ea|]]; cbn; [discriminate|]. intros _ X Y. rewrite concat_app in Y. apply app_eq_nil in Y as [Y _]. now apply X. }
  assert (I : forall z n l, concat (fst (w_ok ([zb z] :: be n l :: []))) <> []) by discriminate.
  destruct p as [|b|z|b|s|l|m|sig fs|t]; cbn [enc].
  - discriminate.
  - destruct b; discriminate.
  - unfold enc_int. repeat match goal with |- context [if ?c then _ else _] => destruct c end; try discriminate.
  - discriminate.
  - unfold enc_str. intros X. apply H; [exact X|]. unfold str_hdr. repeat match goal with |- context [if ?c then _ else _] => destruct c end; discriminate.
  - intros X. apply H; [exact X|]. unfold slice_hdr. repeat match goal with |- context [if ?c then _ else _] => destruct c end; discriminate.
  - intros X. apply H; [exact X|]. unfold map_hdr. repeat match goal with |- context [if ?c then _ else _] => destruct c end; discriminate.
  - intros X. apply H; [exact X|]. unfold struct_hdr. repeat match goal with |- context [if ?c then _ else _] => destruct c end; discriminate.
  - discriminate.
Qed.
(** Whatever the message, there is a peer for which sending it lasts one timeout for each Write, of which
    there are three or more. *)
Lemma send_lasts T v cs x : 0 < T -> 1 <= cs -> snd (encode v x) = None -> exists k, (3 <= k)%nat /\ exists q, forall now rest out calls, exists room,
  timed_encode T v cs (mkSender now (room ++ rest) out calls) x = (mkSender (now + T * Z.of_nat k) rest (out ++ q) (calls + k), None).
Proof.
  intros HT Hcs Hs. pose proof (enc_nonempty _ Hs) as Hne. fold (encode v x) in Hne. unfold timed_encode.
  destruct (encode v x) as [ws fin]. cbn in Hs, Hne. subst fin.
  destruct (run_writes_late T cs ws HT Hcs []) as (k & buf & (q & L) & N). destruct (flush_late T cs buf HT) as (k' & (q' & L') & N1 & N2).
  exists (k + k')%nat. split; [destruct (N Hne) as [H|H]; [lia|specialize (N2 H); lia]|]. exists (q ++ q'). intros now rest out calls.
  destruct (L' (now + T * Z.of_nat k) rest (out ++ q) (calls + k)%nat) as (room' & E').
  destruct (L now (room' ++ rest) out calls) as (room & E). exists (room ++ room'). rewrite <- app_assoc, E, E'. cbn [te_w]. do 2 f_equal; [lia|now rewrite app_assoc|lia].
Qed.
(** Without patience nothing is sent. *)
Lemma send_no_patience T v cs s x : T <= 0 -> snd (encode v x) = None -> exists e s', timed_encode T v cs s x = (s', Some e)
  /\ t_now s' = t_now s /\ t_out s' = t_out s /\ inner_most e = EBadConn.
Proof.
  intros HT Hs. unfold timed_encode. destruct (encode v x) as [ws fin]. cbn in Hs. subst fin.
  assert (W : forall s p, timed_write T s p = (mkSender (t_now s) (t_room s) (t_out s) (S (t_calls s)), Some EBadConn)).
  { intros s0 p. unfold timed_write. destruct (Z.leb_spec T 0); [reflexivity|lia]. }
  assert (R : forall ws buf, (exists buf', timed_run_writes T (mkTimed s buf cs) ws = (mkTimed s buf' cs, None))
     \/ exists e s' buf', timed_run_writes T (mkTimed s buf cs) ws = (mkTimed s' buf' cs, Some e) /\ t_now s' = t_now s /\ t_out s' = t_out s /\ inner_most e = EBadConn).
  { clear ws. induction ws as [|p ws IH]; intros buf; cbn [timed_run_writes]; [left; eauto|]. unfold timed_enc_write. cbn [te_buf te_chunk te_w].
    destruct (_ >=? _); [|apply IH]. right. rewrite W. do 3 eexists. split; [reflexivity|now repeat split]. }
  destruct (R ws []) as [(buf & ->)|(e & s' & buf & -> & H)]; [|exists e, s'; split; [reflexivity|exact H]].
  unfold timed_flush. cbn [te_buf te_chunk te_w]. destruct (_ >? _); rewrite W; do 2 eexists; (split; [reflexivity|now repeat split]).
Qed.
Lemma send_as_encoder T v cs s x s' r : 0 < T -> timed_encode T v cs s x = (s', r) -> exists q e', t_out s' = t_out s ++ q
  /\ encoder_encode v (encoder_on (t_out s) (Some (length q)) cs) x = (e', r) /\ w_out (e_w e') = t_out s'.
Proof. intros HT E. destruct (encode_mirrors _ _ _ _ _ _ _ HT E) as (q & r0 & (A & _) & _ & e' & M1 & M2). exists q, e'. now repeat split. Qed.
