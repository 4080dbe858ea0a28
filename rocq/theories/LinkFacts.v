(** Values travelling over a link: framing, round trip over fragmented streams, sequences of
    messages, links that die, refused values (proofs). *)
From Coq Require Import ZArith List Bool Lia ZifyBool.
From Verif Require Import Bytes BytesFacts GoVal GoErr Encoder Decoder SpecPack SpecValues SpecCodec
  PackFacts ValueFacts FrameFacts WriteFacts ReadFacts.
Import ListNotations.
Open Scope Z_scope.
Ltac Zify.zify_post_hook ::= Z.div_mod_to_equations.

Lemma payload_wbytes v x : payload v x = wbytes (encode v x).
Proof. reflexivity. Qed.

Lemma modest_residual v cs x : modest v cs x ->
  1 <= cs <= 65535 /\ residual cs 0 (fst (encode v x)) <= 65535.
Proof.
  intros [[Hcs H]|[Hcs H]]; (split; [lia|]).
  - pose proof (residual_bound cs (fst (encode v x)) ltac:(lia)
                  (encode_small_writes v x cs ltac:(lia) H) 0 ltac:(lia)). lia.
  - pose proof (residual_total cs (fst (encode v x)) ltac:(lia) 0). unfold payload in H. lia.
Qed.

Lemma encode_frames v cs x o : modest v cs x -> snd (encode v x) = None ->
  exists w, encoder_encode v (encoder_on o None cs) x = (encoder_on (o ++ w) None cs, None)
            /\ frames (payload v x) w.
Proof.
  intros Hm Hs. apply modest_residual in Hm as [Hcs Hr].
  destruct (encode_frames_iff v x o cs Hcs Hs) as [w [E Hf]]. exists w. split; [exact E|].
  now apply Hf.
Qed.

Lemma decode_framed v tz p w g rest r :
  frames p w -> (exists y, decode v tz p = Ok (g, y)) ->
  nonempty (r_frags r) -> r_bytes r = w ++ rest ->
  exists r', decoder_decode v tz r = Ok (g, r') /\ r_bytes r' = rest
             /\ nonempty (r_frags r') /\ r_end r' = r_end r.
Proof.
  intros Hf [y Hd] Hne Hb. pose proof (decoder_decode_flat v tz r Hne) as H.
  unfold flat_decode in H. rewrite Hb, (frames_flat_read _ p w rest Hf), Hd in H. cbn in H.
  destruct (decoder_decode v tz r) as [[x r']| | |]; cbn in H; try contradiction.
  destruct H as [-> [H1 [H2 H3]]]. eauto.
Qed.

Lemma returns_ok v tz x : returns v x ->
  snd (encode v x) = None /\ decode v tz (payload v x) = Ok (received f32_to_f64 x, []).
Proof.
  intros [H1 [H2 H3]]. destruct (encode_decode v tz x [] H1 H2 H3) as [Ha Hb].
  rewrite app_nil_r in Hb. auto.
Qed.

Theorem roundtrip_wire v tz cs x o : returns v x -> modest v cs x ->
  exists w, encoder_encode v (encoder_on o None cs) x = (encoder_on (o ++ w) None cs, None)
  /\ frames (payload v x) w
  /\ forall r rest, nonempty (r_frags r) -> r_bytes r = w ++ rest ->
     exists r', decoder_decode v tz r = Ok (received f32_to_f64 x, r') /\ r_bytes r' = rest
                /\ nonempty (r_frags r') /\ r_end r' = r_end r.
Proof.
  intros Hr Hm. destruct (returns_ok v tz x Hr) as [Hs Hd].
  destruct (encode_frames v cs x o Hm Hs) as [w [E Hf]]. exists w. split; [exact E|]. split; [exact Hf|].
  intros r rest Hne Hb. eapply decode_framed; eauto.
Qed.

Theorem sequence_wire v tz cs xs : Forall (returns v) xs -> Forall (modest v cs) xs ->
  forall o, exists w, encode_all v (encoder_on o None cs) xs = (encoder_on (o ++ w) None cs, None)
  /\ forall r rest, nonempty (r_frags r) -> r_bytes r = w ++ rest ->
     exists r', decode_n v tz (length xs) r = Ok (map (received f32_to_f64) xs, r')
                /\ r_bytes r' = rest /\ nonempty (r_frags r') /\ r_end r' = r_end r.
Proof.
  induction 1 as [|x xs Hx _ IH]; intros Hm o.
  - exists []. rewrite app_nil_r. split; [reflexivity|]. intros r rest Hne Hb. exists r. auto.
  - inversion Hm as [|? ? Hmx Hms]; subst.
    destruct (roundtrip_wire v tz cs x o Hx Hmx) as [w [E [_ Hd]]].
    destruct (IH Hms (o ++ w)) as [w2 [E2 Hd2]].
    exists (w ++ w2). split.
    + cbn [encode_all]. rewrite E, E2. now rewrite app_assoc.
    + intros r rest Hne Hb. rewrite <- app_assoc in Hb.
      destruct (Hd r (w2 ++ rest) Hne Hb) as [r1 [D1 [B1 [N1 X1]]]].
      destruct (Hd2 r1 rest N1 B1) as [r2 [D2 [B2 [N2 X2]]]].
      exists r2. cbn [length decode_n map]. rewrite D1, D2. repeat split; auto. congruence.
Qed.

Theorem marshal_unmarshal v tz x : returns v x -> modest v MaxUint16 x ->
  exists w, marshal v x = (w, None) /\ unmarshal v tz w = Ok (received f32_to_f64 x).
Proof.
  intros Hr Hm. destruct (roundtrip_wire v tz MaxUint16 x [] Hr Hm) as [w [E [Hf Hd]]].
  exists w. unfold marshal. change (new_encoder fresh_writer MaxUint16) with (encoder_on [] None MaxUint16).
  rewrite E. split; [reflexivity|]. unfold unmarshal.
  destruct (Hd (mkReader (match w with [] => [] | _ => [w] end) EEOF) []) as [r' [D _]].
  - cbn. destruct w; repeat constructor; discriminate.
  - cbn. destruct w; cbn; now rewrite ?app_nil_r.
  - lazymatch type of D with ?l = _ =>
      match goal with |- context [decoder_decode v tz ?R] => change (decoder_decode v tz R) with l end end.
    now rewrite D.
Qed.

(** ** A link that dies after k bytes *)

(** A budgeted link and an immortal one that have carried the same bytes so far. *)
Definition alive (k : nat) (o w : bytes) (a b : writer) : Prop :=
  (length w <= k)%nat /\ a = mkWriter (o ++ w) (Some (k - length w)%nat) /\ b = mkWriter (o ++ w) None.
(** The budgeted link has died. *)
Definition dead (k : nat) (o w : bytes) (a b : writer) : Prop :=
  (k < length w)%nat /\ w_out a = o ++ firstn k w /\ b = mkWriter (o ++ w) None.

Lemma w_write_sim k o w a b p : alive k o w a b ->
  (snd (w_write a p) = None /\ snd (w_write b p) = None
   /\ alive k o (w ++ p) (fst (w_write a p)) (fst (w_write b p)))
  \/ (snd (w_write a p) = Some EBadConn /\ snd (w_write b p) = None
      /\ dead k o (w ++ p) (fst (w_write a p)) (fst (w_write b p))).
Proof.
  intros [Hl [-> ->]]. unfold w_write. cbn [w_left w_out].
  destruct (Nat.leb (length p) (k - length w)) eqn:E.
  - apply Nat.leb_le in E. left. cbn. repeat split; rewrite ?app_length; try lia.
    + rewrite app_assoc. f_equal. f_equal. lia.
    + now rewrite app_assoc.
  - apply Nat.leb_gt in E. right. cbn. repeat split; rewrite ?app_length; try lia.
    + rewrite firstn_app, (firstn_all2 w) by lia. now rewrite app_assoc.
    + now rewrite app_assoc.
Qed.

Lemma dead_more k o w p a b : dead k o w a b -> dead k o (w ++ p) a (mkWriter (o ++ w ++ p) None).
Proof.
  intros [Hl [Ha ->]]. repeat split.
  - rewrite app_length. lia.
  - rewrite Ha, firstn_app. replace (k - length w)%nat with 0%nat by lia. now rewrite firstn_O, app_nil_r.
Qed.

Lemma enc_write_sim k o w a b buf cs p : 0 <= cs -> alive k o w a b ->
  let ra := enc_write (mkEncoder a buf cs) p in
  let rb := enc_write (mkEncoder b buf cs) p in
  exists w', snd rb = None /\ e_chunk (fst ra) = cs /\ e_chunk (fst rb) = cs
  /\ ((snd ra = None /\ e_buf (fst ra) = e_buf (fst rb) /\ alive k o w' (e_w (fst ra)) (e_w (fst rb)))
      \/ (snd ra <> None /\ dead k o w' (e_w (fst ra)) (e_w (fst rb)))).
Proof.
  intros Hcs Ha. cbn zeta. unfold enc_write. cbn [e_buf e_chunk e_w].
  destruct (zlen (buf ++ p) >=? cs).
  2:{ exists w. cbn. repeat split. left. auto. }
  destruct (w_write_sim k o w a b (be 2 cs) Ha) as [[A1 [A2 A3]]|[A1 [A2 A3]]];
    destruct (w_write a (be 2 cs)) as [a1 ra1]; destruct (w_write b (be 2 cs)) as [b1 rb1];
    cbn [fst snd] in *; subst.
  - destruct (w_write_sim _ _ _ _ _ (firstn (Z.to_nat cs) (buf ++ p)) A3) as [[B1 [B2 B3]]|[B1 [B2 B3]]];
      destruct (w_write a1 _) as [a2 ra2]; destruct (w_write b1 _) as [b2 rb2]; cbn [fst snd] in *; subst.
    + eexists; cbn [fst snd e_w e_buf e_chunk]; repeat split. left. repeat split; apply B3.
    + eexists; cbn [fst snd e_w e_buf e_chunk]; repeat split. right. split; [discriminate|exact B3].
  - assert (b1 = mkWriter (o ++ w ++ be 2 cs) None) as -> by apply A3.
    unfold w_write. cbn [w_left w_out fst snd e_w e_chunk e_buf].
    exists ((w ++ be 2 cs) ++ firstn (Z.to_nat cs) (buf ++ p)). repeat split. right.
    split; [discriminate|]. apply (dead_more _ _ _ (firstn (Z.to_nat cs) (buf ++ p))) in A3.
    rewrite <- !app_assoc in *. exact A3.
Qed.

Lemma run_writes_sim k o cs ws : 0 <= cs -> forall w a b buf, alive k o w a b ->
  let ra := run_writes (mkEncoder a buf cs) ws in
  let rb := run_writes (mkEncoder b buf cs) ws in
  exists w', snd rb = None /\ e_chunk (fst ra) = cs /\ e_chunk (fst rb) = cs
  /\ ((snd ra = None /\ e_buf (fst ra) = e_buf (fst rb) /\ alive k o w' (e_w (fst ra)) (e_w (fst rb)))
      \/ (snd ra <> None /\ dead k o w' (e_w (fst ra)) (e_w (fst rb)))).
Proof.
  intros Hcs. induction ws as [|p ws IH]; intros w a b buf Ha; cbn zeta; cbn [run_writes].
  - exists w. cbn. repeat split. left. auto.
  - destruct (enc_write_sim k o w a b buf cs p Hcs Ha) as [w1 [B1 [B2 [B3 B4]]]]. cbn zeta in *.
    destruct (enc_write (mkEncoder a buf cs) p) as [[ea eba eca] ra].
    destruct (enc_write (mkEncoder b buf cs) p) as [[eb ebb ecb] rb]. cbn [fst snd e_w e_buf e_chunk] in *. subst.
    destruct B4 as [[-> [-> B4]]|[B4 B5]].
    + exact (IH w1 ea eb ebb B4).
    + destruct ra as [err|]; [|congruence]. cbn [fst snd e_w e_chunk].
      assert (eb = mkWriter (o ++ w1) None) as -> by apply B5.
      destruct (run_writes_ok cs ws Hcs (o ++ w1) ebb) as [w2 [buf2 [pl [E _]]]]. rewrite E.
      exists (w1 ++ w2). cbn [fst snd e_w e_chunk e_buf]. repeat split. right. split; [discriminate|].
      rewrite <- app_assoc. eapply dead_more; eauto.
Qed.

Lemma flush_sim k o w a b buf cs : alive k o w a b ->
  let ra := flush (mkEncoder a buf cs) in
  let rb := flush (mkEncoder b buf cs) in
  exists w', snd rb = None
  /\ ((snd ra = None /\ alive k o w' (e_w (fst ra)) (e_w (fst rb)))
      \/ (snd ra <> None /\ dead k o w' (e_w (fst ra)) (e_w (fst rb)))).
Proof.
  intros Ha. cbn zeta.
  assert (Hfin : forall w a b buf1 buf2, alive k o w a b ->
    let ra := (let '(w', r) := w_write a EndMessage in
               match r with
               | Some err => (mkEncoder w' buf1 cs, Some (EWrap (Some err) 5))
               | None => (mkEncoder w' [] cs, None) end) in
    let rb := (let '(w', r) := w_write b EndMessage in
               match r with
               | Some err => (mkEncoder w' buf2 cs, Some (EWrap (Some err) 5))
               | None => (mkEncoder w' [] cs, None) end) in
    exists w', snd rb = None
    /\ ((snd ra = None /\ alive k o w' (e_w (fst ra)) (e_w (fst rb)))
        \/ (snd ra <> None /\ dead k o w' (e_w (fst ra)) (e_w (fst rb))))).
  { clear. intros w a b buf1 buf2 Ha. cbn zeta.
    destruct (w_write_sim k o w a b EndMessage Ha) as [[A1 [A2 A3]]|[A1 [A2 A3]]];
      destruct (w_write a EndMessage) as [a1 ra1]; destruct (w_write b EndMessage) as [b1 rb1];
      cbn [fst snd] in *; subst; eexists; cbn [fst snd e_w]; (split; [reflexivity|]).
    - left. split; [reflexivity|exact A3].
    - right. split; [discriminate|exact A3]. }
  unfold flush. cbn [e_buf e_chunk e_w].
  destruct (zlen buf >? 0).
  2:{ exact (Hfin w a b buf buf Ha). }
  destruct (w_write_sim k o w a b (be 2 (uint16 (zlen buf))) Ha) as [[A1 [A2 A3]]|[A1 [A2 A3]]];
    destruct (w_write a (be 2 (uint16 (zlen buf)))) as [a1 ra1] eqn:Ea1;
    destruct (w_write b (be 2 (uint16 (zlen buf)))) as [b1 rb1];
    cbn [fst snd] in *; subst.
  - destruct (w_write_sim _ _ _ _ _ buf A3) as [[B1 [B2 B3]]|[B1 [B2 B3]]];
      destruct (w_write a1 buf) as [a2 ra2]; destruct (w_write b1 buf) as [b2 rb2]; cbn [fst snd] in *; subst.
    + exact (Hfin _ a2 b2 [] [] B3).
    + assert (b2 = mkWriter (o ++ (w ++ be 2 (uint16 (zlen buf))) ++ buf) None) as -> by apply B3.
      unfold w_write. cbn [w_left w_out fst snd e_w].
      exists (((w ++ be 2 (uint16 (zlen buf))) ++ buf) ++ EndMessage). split; [reflexivity|]. right.
      split; [discriminate|]. apply (dead_more _ _ _ EndMessage) in B3. rewrite <- !app_assoc in *. exact B3.
  - assert (b1 = mkWriter (o ++ w ++ be 2 (uint16 (zlen buf))) None) as -> by apply A3.
    unfold w_write. cbn [w_left w_out fst snd e_w].
    exists ((w ++ be 2 (uint16 (zlen buf))) ++ buf ++ EndMessage). split; [reflexivity|]. right.
    split; [discriminate|]. apply (dead_more _ _ _ (buf ++ EndMessage)) in A3. rewrite <- !app_assoc in *. exact A3.
Qed.

(** On a link that dies after k bytes the peer has received the first k bytes of what an immortal
    link would have carried; Encode reports success only if everything was carried. *)
Theorem encode_dying v x o k cs : 0 <= cs -> snd (encode v x) = None ->
  exists w, encoder_encode v (encoder_on o None cs) x = (encoder_on (o ++ w) None cs, None)
  /\ w_out (e_w (fst (encoder_encode v (encoder_on o (Some k) cs) x))) = o ++ firstn k w
  /\ (snd (encoder_encode v (encoder_on o (Some k) cs) x) = None <-> (length w <= k)%nat).
Proof.
  intros Hcs Hs. destruct (encode_wire v x o [] cs Hcs Hs) as [w0 [buf' [pl [E0 _]]]].
  set (w := w0 ++ last_chunk buf') in *. exists w. split; [exact E0|].
  unfold encoder_encode in *. destruct (encode v x) as [ws fin]. cbn in Hs. subst fin.
  assert (Ha : alive k o [] (mkWriter o (Some k)) (mkWriter o None)).
  { split; [cbn; lia|]. cbn [length]. rewrite app_nil_r, Nat.sub_0_r. auto. }
  destruct (run_writes_sim k o cs ws Hcs [] _ _ [] Ha) as [w1 [B1 [B2 [B3 B4]]]]. cbn zeta in *.
  unfold encoder_on, new_encoder.
  destruct (run_writes (mkEncoder (mkWriter o (Some k)) [] cs) ws) as [[ea eba eca] ra].
  destruct (run_writes (mkEncoder (mkWriter o None) [] cs) ws) as [[eb ebb ecb] rb].
  cbn [fst snd e_w e_buf e_chunk] in *. subst.
  assert (HE : forall u, o ++ u = o ++ w -> u = w) by (intros u; apply app_inv_head).
  destruct B4 as [[-> [-> B4]]|[B4 B5]].
  - destruct (flush_sim k o w1 ea eb ebb cs B4) as [w2 [C1 C2]]. cbn zeta in *.
    destruct (flush (mkEncoder ea ebb cs)) as [[fa fba fca] rfa].
    rewrite E0 in *. cbn [fst snd e_w] in *.
    destruct C2 as [[-> C2]|[C2 C3]].
    + destruct C2 as [Hl [-> Eo]]. injection Eo as Eo. symmetry in Eo. apply HE in Eo. cbn [w_out].
      rewrite <- Eo. rewrite firstn_all2 by lia. split; [reflexivity|]. tauto.
    + destruct C3 as [Hl [-> Eo]]. injection Eo as Eo. symmetry in Eo. apply HE in Eo. rewrite <- Eo.
      split; [reflexivity|]. split; [congruence|lia].
  - destruct ra as [err|]; [|congruence]. cbn [fst snd e_w].
    destruct B5 as [Hl [-> ->]]. rewrite flush_ok in E0. injection E0 as E0. rewrite <- app_assoc in E0.
    apply HE in E0. rewrite <- E0. rewrite firstn_app. replace (k - length w1)%nat with 0%nat by lia.
    rewrite firstn_O, app_nil_r. split; [reflexivity|]. split; [discriminate|]. rewrite app_length. lia.
Qed.

(** ** Refused values *)

(** What a refused value leaves behind on a working link. *)
Lemma encode_refused v x o cs buf e : 0 <= cs -> snd (encode v x) = Some e ->
  exists w buf' pl,
    encoder_encode v (mkEncoder (mkWriter o None) buf cs) x
    = (mkEncoder (mkWriter (o ++ w) None) buf' cs, Some e)
    /\ chunked cs pl w /\ pl ++ buf' = buf ++ payload v x
    /\ zlen buf' = residual cs (zlen buf) (fst (encode v x)).
Proof.
  intros Hcs Hs. unfold encoder_encode, payload. destruct (encode v x) as [ws fin] eqn:E. cbn in Hs. subst fin.
  destruct (run_writes_ok cs ws Hcs o buf) as [w [buf' [pl [E1 [Hc [Hp Hz]]]]]]. rewrite E1.
  exists w, buf', pl. auto.
Qed.

Lemma residual_none cs ws : 0 <= cs -> forall r, 0 <= r ->
  (r + zlen (concat ws) < cs -> residual cs r ws = r + zlen (concat ws))
  /\ (1 <= cs -> cs <= r + zlen (concat ws) -> r < cs -> residual cs r ws < r + zlen (concat ws)).
Proof.
  intros Hcs. induction ws as [|p ws IH]; intros r Hr; cbn [residual concat].
  - change (zlen (@nil byte)) with 0. split; lia.
  - rewrite zlen_app. pose proof (zlen_nonneg p). pose proof (zlen_nonneg (concat ws)). unfold step_res.
    destruct (r + zlen p >=? cs) eqn:E.
    + split; [lia|]. intros H1 H2 H3. pose proof (residual_total cs ws Hcs (r + zlen p - cs)). lia.
    + destruct (IH (r + zlen p) ltac:(lia)) as [I1 I2]. split; intros; [rewrite I1; lia|].
      specialize (I2 ltac:(lia) ltac:(lia) ltac:(lia)). lia.
Qed.

Lemma chunked_nil_iff cs pl w : 1 <= cs -> chunked cs pl w -> (w = [] <-> pl = []).
Proof.
  intros Hcs. destruct 1; [tauto|]. split; intros E.
  - destruct (be 2 cs) eqn:Eb; [|discriminate]. apply (f_equal (@length byte)) in Eb.
    rewrite be_length in Eb. discriminate.
  - apply app_eq_nil in E as [-> _]. cbn in H. lia.
Qed.

(** A refused value leaves the link untouched exactly when the bytes produced before the refusal
    were fewer than a chunk. *)
Theorem refused_clean_iff v x o cs e : 1 <= cs -> snd (encode v x) = Some e ->
  (w_out (e_w (fst (encoder_encode v (encoder_on o None cs) x))) = o
   <-> zlen (payload v x) < cs)
  /\ snd (encoder_encode v (encoder_on o None cs) x) = Some e.
Proof.
  intros Hcs Hs. destruct (encode_refused v x o cs [] e ltac:(lia) Hs) as [w [buf' [pl [E [Hc [Hp Hz]]]]]].
  unfold encoder_on, new_encoder. rewrite E. cbn [fst snd e_w w_out]. split; [|reflexivity].
  cbn [app] in Hp. change (zlen []) with 0 in Hz.
  destruct (residual_none cs (fst (encode v x)) ltac:(lia) 0 ltac:(lia)) as [R1 R2].
  fold (payload v x) in *. assert (HL : zlen pl + zlen buf' = zlen (payload v x)) by (rewrite <- Hp, zlen_app; reflexivity).
  split.
  - intros Ho. rewrite <- (app_nil_r o) in Ho at 2. apply app_inv_head in Ho. subst w.
    apply (chunked_nil_iff cs pl [] Hcs) in Hc. destruct Hc as [Hc _]. rewrite (Hc eq_refl) in *.
    change (zlen (@nil byte)) with 0 in HL.
    destruct (Z_lt_ge_dec (zlen (payload v x)) cs); [assumption|].
    specialize (R2 Hcs ltac:(lia) ltac:(lia)). lia.
  - intros Hlt. rewrite (R1 ltac:(lia)) in Hz. assert (zlen pl = 0) by lia.
    assert (pl = []) by (destruct pl; [reflexivity|]; rewrite zlen_cons in *; pose proof (zlen_nonneg pl); lia).
    apply (chunked_nil_iff cs pl w Hcs) in Hc. rewrite (proj2 Hc H0). apply app_nil_r.
Qed.

(** A refusal before the first byte leaves the encoder as it was. *)
Lemma refused_first v x e cs o : snd (encode v x) = Some e -> fst (encode v x) = [] ->
  encoder_encode v (encoder_on o None cs) x = (encoder_on o None cs, Some e).
Proof.
  intros H1 H2. unfold encoder_encode. destruct (encode v x) as [ws fin]. cbn in *. subst. reflexivity.
Qed.
