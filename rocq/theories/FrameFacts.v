(** Chunking on the sending side and reassembly on the receiving side (proofs). *)
From Coq Require Import ZArith List Bool Lia ZifyBool.
From Verif Require Import Bytes BytesFacts GoVal GoErr Encoder Decoder SpecPack PackFacts.
Import ListNotations.
Open Scope Z_scope.
Ltac Zify.zify_post_hook ::= Z.div_mod_to_equations.

(** ** Facts about valid framings *)

Lemma unsigned_be_unique n z a b : unsigned_be n z a -> unsigned_be n z b -> a = b.
Proof.
  intros [H1 H2] [H3 H4]. rewrite <- (be_unbe a), <- (be_unbe b), !unbe_be_value. congruence.
Qed.

Lemma frames_snoc_chunks c h p w : c <> [] -> zlen c <= 65535 -> h = be 2 (zlen c) ->
  frames p w -> frames (c ++ p) (h ++ c ++ w).
Proof.
  intros Hc Hl -> Hf. constructor; auto. apply be_unsigned. pose proof (zlen_nonneg c).
  change (256 ^ Z.of_nat 2) with 65536. lia.
Qed.

(** ** Executing the writes of a message on a working link *)

Definition ok_writer (w : writer) := w_left w = None.

(** [chunked cs n w]: [w] is a sequence of chunks of exactly [cs] bytes with payload [n]. *)
Inductive chunked (cs : Z) : bytes -> bytes -> Prop :=
| ck_nil : chunked cs [] []
| ck_cons c p w : zlen c = cs -> chunked cs p w -> chunked cs (c ++ p) (be 2 cs ++ c ++ w).

Lemma chunked_app cs p1 w1 p2 w2 : chunked cs p1 w1 -> chunked cs p2 w2 -> chunked cs (p1 ++ p2) (w1 ++ w2).
Proof.
  induction 1; intros H2; [assumption|]. rewrite <- !app_assoc. constructor; auto.
Qed.

Lemma chunked_frames cs p w p' w' : 1 <= cs <= 65535 -> chunked cs p w -> frames p' w' ->
  frames (p ++ p') (w ++ w').
Proof.
  intros Hcs. induction 1; intros Hf; [assumption|]. rewrite <- !app_assoc.
  apply frames_snoc_chunks; auto.
  - intros ->. cbn in H. lia.
  - lia.
  - now subst.
Qed.

Definition step_res (cs r n : Z) : Z := if r + n >=? cs then r + n - cs else r + n.
(** Number of bytes left in the encoder's buffer after the given writes. *)
Fixpoint residual (cs r : Z) (ws : list bytes) : Z :=
  match ws with [] => r | p :: ws' => residual cs (step_res cs r (zlen p)) ws' end.

Lemma enc_write_ok cs o buf p : 0 <= cs ->
  exists w buf' pl,
    enc_write (mkEncoder (mkWriter o None) buf cs) p = (mkEncoder (mkWriter (o ++ w) None) buf' cs, None)
    /\ chunked cs pl w /\ pl ++ buf' = buf ++ p /\ zlen buf' = step_res cs (zlen buf) (zlen p).
Proof.
  intros Hcs. unfold enc_write, step_res. cbn [e_buf e_chunk e_w].
  rewrite <- zlen_app. set (B := buf ++ p).
  destruct (zlen B >=? cs) eqn:E.
  - exists (be 2 cs ++ firstn (Z.to_nat cs) B), (skipn (Z.to_nat cs) B), (firstn (Z.to_nat cs) B).
    unfold w_write. cbn [w_left w_out]. rewrite <- app_assoc. split; [reflexivity|].
    assert (zlen (firstn (Z.to_nat cs) B) = cs).
    { unfold zlen in *. rewrite firstn_length. lia. }
    split; [|split].
    + rewrite <- (app_nil_r (firstn (Z.to_nat cs) B)) at 1.
      rewrite <- (app_nil_r (firstn (Z.to_nat cs) B)) at 2.
      apply ck_cons; [assumption|constructor].
    + apply firstn_skipn.
    + unfold zlen in *. rewrite skipn_length. lia.
  - exists [], B, []. rewrite app_nil_r. repeat split; constructor.
Qed.

Lemma run_writes_ok cs ws : 0 <= cs -> forall o buf,
  exists w buf' pl,
    run_writes (mkEncoder (mkWriter o None) buf cs) ws = (mkEncoder (mkWriter (o ++ w) None) buf' cs, None)
    /\ chunked cs pl w /\ pl ++ buf' = buf ++ concat ws /\ zlen buf' = residual cs (zlen buf) ws.
Proof.
  intros Hcs. induction ws as [|p ws IH]; intros o buf; cbn [run_writes concat residual].
  - exists [], buf, []. rewrite !app_nil_r. repeat split; constructor.
  - destruct (enc_write_ok cs o buf p Hcs) as [w [buf' [pl [E [Hc [Hp Hz]]]]]]. rewrite E.
    destruct (IH (o ++ w) buf') as [w2 [buf2 [pl2 [E2 [Hc2 [Hp2 Hz2]]]]]]. rewrite E2.
    exists (w ++ w2), buf2, (pl ++ pl2). rewrite <- app_assoc. split; [reflexivity|].
    split; [now apply chunked_app|]. split.
    + rewrite <- app_assoc, Hp2. rewrite app_assoc, Hp, app_assoc. reflexivity.
    + now rewrite Hz2, Hz.
Qed.

Definition last_chunk (buf : bytes) : bytes :=
  match buf with [] => [x00; x00] | _ => be 2 (uint16 (zlen buf)) ++ buf ++ [x00; x00] end.

Lemma flush_ok cs o buf :
  flush (mkEncoder (mkWriter o None) buf cs)
  = (mkEncoder (mkWriter (o ++ last_chunk buf) None) [] cs, None).
Proof.
  unfold flush, w_write, last_chunk. cbn [e_buf e_chunk e_w w_left w_out].
  destruct buf as [|b buf]; [reflexivity|].
  destruct (zlen (b :: buf) >? 0) eqn:E; [|rewrite zlen_cons in E; pose proof (zlen_nonneg buf); lia].
  rewrite <- !app_assoc. reflexivity.
Qed.

Lemma last_chunk_frames buf : zlen buf <= 65535 -> frames buf (last_chunk buf).
Proof.
  intros H. destruct buf as [|b buf]; [constructor|]. unfold last_chunk.
  pose proof (zlen_nonneg (b :: buf)).
  unfold uint16, to_unsigned. rewrite Z.mod_small by (change (256 ^ Z.of_nat 2) with 65536; lia).
  replace (frames (b :: buf)) with (frames ((b :: buf) ++ [])) by now rewrite app_nil_r.
  apply frames_snoc_chunks; auto; [discriminate|constructor].
Qed.

(** Encode on a working link: full chunks, then the rest as one chunk, then the end marker. *)
Theorem encode_wire v x o buf cs : 0 <= cs -> snd (encode v x) = None ->
  exists w buf' pl,
    encoder_encode v (mkEncoder (mkWriter o None) buf cs) x
    = (mkEncoder (mkWriter (o ++ w ++ last_chunk buf') None) [] cs, None)
    /\ chunked cs pl w /\ pl ++ buf' = buf ++ wbytes (encode v x)
    /\ zlen buf' = residual cs (zlen buf) (fst (encode v x)).
Proof.
  intros Hcs Hs. unfold encoder_encode. destruct (encode v x) as [ws fin] eqn:E. cbn in Hs. subst fin.
  destruct (run_writes_ok cs ws Hcs o buf) as [w [buf' [pl [E1 [Hc [Hp Hz]]]]]]. rewrite E1.
  rewrite flush_ok. exists w, buf', pl. rewrite <- app_assoc. auto.
Qed.

(** ** When the rest fits into one chunk *)

Lemma residual_bound cs ws : 1 <= cs -> Forall (fun p => zlen p <= cs) ws ->
  forall r, 0 <= r < cs -> 0 <= residual cs r ws < cs.
Proof.
  intros Hcs. induction 1 as [|p ws Hp _ IH]; intros r Hr; cbn [residual]; [assumption|].
  apply IH. unfold step_res. pose proof (zlen_nonneg p). destruct (r + zlen p >=? cs) eqn:E; lia.
Qed.

Lemma residual_total cs ws : 0 <= cs -> forall r, residual cs r ws <= r + zlen (concat ws).
Proof.
  intros Hcs. induction ws as [|p ws IH]; intros r; cbn [residual concat].
  - unfold zlen; cbn; lia.
  - rewrite zlen_app. eapply Z.le_trans; [apply IH|]. unfold step_res.
    destruct (r + zlen p >=? cs); lia.
Qed.

(** ** When it does not: the message is not a valid framing of its payload *)

Lemma frames_length p w : frames p w ->
  exists k, 0 <= k /\ zlen w = zlen p + 2 + 2 * k /\ (k = 0 -> p = []).
Proof.
  induction 1 as [|c h p w Hc Hl [Hh Hv] Hf [k [Hk [E _]]]].
  - exists 0. cbn. auto with zarith.
  - exists (k + 1). rewrite !zlen_app, E. unfold zlen at 1. rewrite Hh. split; [lia|]. split; lia.
Qed.

Lemma frames_header p h w : frames p (h ++ w) -> length h = 2%nat ->
  unbe h = 0 /\ w = [] /\ p = []
  \/ exists c p' w', c <> [] /\ zlen c = unbe h /\ p = c ++ p' /\ w = c ++ w' /\ frames p' w'.
Proof.
  intros H Hh. inversion H as [|c h' p' w' Hc Hl [Hh' Hv] Hf E1 E2].
  - left. destruct h as [|a [|b [|]]]; try discriminate. cbn in H1. injection H1 as <- <- <-. auto.
  - right. exists c, p', w'.
    assert (h' = h /\ c ++ w' = w) as [-> <-].
    { apply (f_equal (firstn 2)) in E2 as E3. apply (f_equal (skipn 2)) in E2 as E4.
      rewrite <- Hh in E3 at 2. rewrite <- Hh' in E3 at 1. rewrite !firstn_app_exact in E3.
      rewrite <- Hh in E4 at 2. rewrite <- Hh' in E4 at 1. rewrite !skipn_app_exact in E4. auto. }
    rewrite unbe_be_value. auto.
Qed.

Lemma app_inv_len {A} (a b c d : list A) : length a = length c -> a ++ b = c ++ d -> a = c /\ b = d.
Proof.
  intros Hl H. split.
  - apply (f_equal (firstn (length a))) in H. rewrite firstn_app_exact in H.
    rewrite Hl in H. now rewrite firstn_app_exact in H.
  - apply (f_equal (skipn (length a))) in H. rewrite skipn_app_exact in H.
    rewrite Hl in H. now rewrite skipn_app_exact in H.
Qed.

Lemma zlen_eq {A} (a b : list A) : zlen a = zlen b <-> length a = length b.
Proof. unfold zlen. lia. Qed.

Lemma frames_peel cs pl w p' w' : 1 <= cs <= 65535 -> chunked cs pl w ->
  frames (pl ++ p') (w ++ w') -> frames p' w'.
Proof.
  intros Hcs. induction 1 as [|c p w Hc Hch IH]; intros Hf; [assumption|].
  rewrite <- !app_assoc in Hf. apply frames_header in Hf; [|apply be_length].
  rewrite unbe_be, Z.mod_small in Hf by (change (256 ^ Z.of_nat 2) with 65536; lia).
  destruct Hf as [[Hf _]|[c' [p1 [w1 [Hc' [Hz [E1 [E2 Hf]]]]]]]]; [lia|].
  apply app_inv_len in E1; [|apply zlen_eq; lia]. destruct E1 as [<- <-].
  apply app_inv_len in E2; [|reflexivity]. destruct E2 as [_ <-]. auto.
Qed.

Lemma last_chunk_not_frames buf : 65535 < zlen buf -> ~ frames buf (last_chunk buf).
Proof.
  intros Hl Hf. destruct buf as [|b buf]; [cbn in Hl; lia|]. unfold last_chunk in Hf.
  apply frames_header in Hf; [|apply be_length].
  rewrite unbe_be in Hf. unfold uint16, to_unsigned in Hf. rewrite Z.mod_mod in Hf by easy.
  destruct Hf as [[_ [Hf _]]|[c [p1 [w1 [Hc [Hz [E1 [E2 Hf]]]]]]]].
  - discriminate.
  - rewrite E1, <- app_assoc in E2. apply app_inv_len in E2; [|reflexivity]. destruct E2 as [_ <-].
    apply frames_length in Hf. destruct Hf as [k [Hk [Hf Hf0]]]. rewrite zlen_app in Hf.
    change (zlen [x00; x00]) with 2 in Hf. assert (k = 0) by lia. subst k. rewrite (Hf0 eq_refl) in E1.
    rewrite app_nil_r in E1. rewrite E1 in *.
    assert (zlen c mod 256 ^ Z.of_nat 2 < 256 ^ Z.of_nat 2) by (apply Z.mod_pos_bound; reflexivity).
    change (256 ^ Z.of_nat 2) with 65536 in *. lia.
Qed.

(** The exact condition under which an encoded message is a valid framing of its payload. *)
Theorem encode_frames_iff v x o cs : 1 <= cs <= 65535 -> snd (encode v x) = None ->
  exists w, encoder_encode v (mkEncoder (mkWriter o None) [] cs) x
            = (mkEncoder (mkWriter (o ++ w) None) [] cs, None)
  /\ (frames (wbytes (encode v x)) w <-> residual cs 0 (fst (encode v x)) <= 65535).
Proof.
  intros Hcs Hs. destruct (encode_wire v x o [] cs ltac:(lia) Hs) as [w [buf [pl [E [Hc [Hp Hz]]]]]].
  exists (w ++ last_chunk buf). split; [assumption|]. cbn [app] in Hp. rewrite <- Hp.
  change (zlen []) with 0 in Hz. rewrite <- Hz. split.
  - intros Hf. apply (frames_peel cs) in Hf; try assumption.
    destruct (Z_le_gt_dec (zlen buf) 65535); [assumption|]. exfalso.
    apply (last_chunk_not_frames buf); [lia|assumption].
  - intros Hb. eapply chunked_frames; eauto. now apply last_chunk_frames.
Qed.
