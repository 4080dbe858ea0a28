(** Proofs of the codec properties in the form in which PropsCodec.v states them. *)
From Coq Require Import ZArith List Bool Lia ZifyBool Permutation.
From Verif Require Import Bytes BytesFacts GoVal GoErr Encoder Decoder SpecPack SpecValues SpecCodec
  PackFacts DecodeFacts ValueFacts FrameFacts WriteFacts ReadFacts TotalFacts CutFacts LinkFacts
  ShapeFacts TimeFacts RecvFacts.
Import ListNotations.
Open Scope Z_scope.
Ltac Zify.zify_post_hook ::= Z.div_mod_to_equations.

(** C01 *)
Lemma int_payload v k z : in_kind k z = true -> z < 2 ^ 63 -> zlen (payload v (GInt k z)) <= 9.
Proof.
  intros Hk Hz. unfold payload, encode. rewrite lower_item.
  - cbn [item enc]. change (concat (fst (enc_int z))) with (wbytes (enc_int z)).
    unfold enc_int, MinInt64, MaxInt64, MinInt32, MaxInt32, MinInt16, MaxInt16, MinInt8, MaxInt8.
    split_ifs; unfold w_ok, wbytes, w_err; cbn [fst concat]; rewrite ?zlen_app, ?zlen_be, ?zlen_cons;
      change (zlen (@nil byte)) with 0; lia.
  - exact Hk.
  - cbn [plain]. now apply Z.ltb_lt.
Qed.

Lemma int_returns v k z : in_kind k z = true -> z < 2 ^ 63 -> returns v (GInt k z).
Proof. intros Hk Hz. split; [exact Hk|]. split; [|reflexivity]. cbn [plain]. now apply Z.ltb_lt. Qed.

Lemma ints_survive v tz k z cs o : in_kind k z = true -> z < 2 ^ 63 -> 1 <= cs <= 65535 ->
  exists w, encoder_encode v (encoder_on o None cs) (GInt k z) = (encoder_on (o ++ w) None cs, None)
  /\ forall r rest, nonempty (r_frags r) -> r_bytes r = w ++ rest ->
     exists r', decoder_decode v tz r = Ok (GInt KInt64 z, r') /\ r_bytes r' = rest.
Proof.
  intros Hk Hz Hcs. destruct (roundtrip_wire v tz cs (GInt k z) o) as [w [E [_ H]]].
  - now apply int_returns.
  - right. split; [assumption|]. pose proof (int_payload v k z Hk Hz). lia.
  - exists w. split; [exact E|]. intros r rest Hn Hb. destruct (H r rest Hn Hb) as [r' [H1 [H2 _]]]. eauto.
Qed.

(** C02 *)
Lemma big_refused v k z e : in_kind k z = true -> 2 ^ 63 <= z -> k <> KUint ->
  exists err, encoder_encode v e (GInt k z) = (e, Some err).
Proof.
  intros Hk Hz Hn. exists (ENew TIntegerTooBig).
  assert (k = KUint64) as ->.
  { change (2 ^ 63) with 9223372036854775808 in Hz. unfold in_kind in Hk. destruct k; cbn in Hk; try congruence; lia. }
  unfold encoder_encode, encode. cbn [lower int_arg]. unfold MaxInt64.
  change (2 ^ 63) with 9223372036854775808 in Hz. destruct (z >? 9223372036854775807) eqn:E; [|lia]. reflexivity.
Qed.

Lemma uint_wraps v tz z : 2 ^ 63 <= z < 2 ^ 64 ->
  snd (encode v (GInt KUint z)) = None
  /\ decode v tz (payload v (GInt KUint z)) = Ok (GInt KInt64 (z - 2 ^ 64), []).
Proof.
  intros Hz. change (2 ^ 63) with 9223372036854775808 in Hz. change (2 ^ 64) with 18446744073709551616 in *.
  assert (E : int64 z = z - 18446744073709551616).
  { unfold int64, to_signed. change (256 ^ Z.of_nat 8) with 18446744073709551616.
    rewrite Z.mod_small by lia. destruct (z <? 18446744073709551616 / 2) eqn:E; lia. }
  assert (EE : encode v (GInt KUint z) = encode v (GInt KInt64 (z - 18446744073709551616))).
  { unfold encode. cbn [lower int_arg]. rewrite E, (int64_small (z - 18446744073709551616)) by lia. reflexivity. }
  unfold payload. rewrite EE. destruct (returns_ok v tz (GInt KInt64 (z - 18446744073709551616))) as [H1 H2].
  - apply int_returns; [unfold in_kind; cbn; lia|]. change (2 ^ 63) with 9223372036854775808. lia.
  - split; [exact H1|exact H2].
Qed.

(** C04 *)
Lemma encoder_valid v x : go_typed x = true -> snd (encode v x) = None ->
  exists p, packs format_limits p (payload v x) /\ (plain v x = true -> p = item f32_to_f64 x).
Proof.
  intros Ht Hs. exists (lower v x). split; [now apply encode_valid|]. intros Hp. now apply lower_item.
Qed.

(** C05 *)
Lemma int_shortest v k z L bs : in_kind k z = true -> z < 2 ^ 63 -> packs L (PInt z) bs ->
  zlen (payload v (GInt k z)) <= zlen bs.
Proof.
  intros Hk Hz Hp. unfold payload, encode. rewrite lower_item.
  - apply (enc_int_minimal L z bs Hp).
  - exact Hk.
  - cbn [plain]. now apply Z.ltb_lt.
Qed.

(** C06 *)
Lemma string_valid_panics v tz s : 128 <= zlen s <= 255 ->
  exists bs, packs format_limits (PStr s) bs /\ decode v tz bs = Panic.
Proof.
  intros Hs. destruct (string_top_bit v tz s []) as [H1 H2]; [left; lia|]. rewrite app_nil_r in H2.
  exists (payload v (GStr s)). split; [|exact H2].
  apply (encode_valid v (GStr s)); [reflexivity|exact H1].
Qed.

(** C07 *)
Lemma read_full_len en : forall fs n got x fs', read_full n fs got en = inl (x, fs') ->
  (length (concat fs') + n = length (concat fs))%nat.
Proof.
  induction fs as [|f fs IH]; intros n got x fs' H.
  - destruct n; cbn in H; [|destruct got, en; discriminate]. injection H as <- <-. cbn. lia.
  - destruct n as [|n]; [cbn in H; injection H as <- <-; lia|]. cbn [read_full concat] in *.
    destruct (Nat.leb (length f) (S n)) eqn:E.
    + apply Nat.leb_le in E. apply IH in H. rewrite app_length. lia.
    + apply Nat.leb_gt in E. assert (fs' = skipn (S n) f :: fs) as -> by congruence. cbn [concat].
      rewrite !app_length, skipn_length. lia.
Qed.
Lemma read_data_len en : forall fs n got x fs', read_data n fs got en = inl (x, fs') ->
  (length (concat fs') + n = length (concat fs))%nat.
Proof.
  induction fs as [|f fs IH]; intros n got x fs' H.
  - destruct n; cbn in H; [|discriminate]. injection H as <- <-. cbn. lia.
  - destruct n as [|n]; [cbn in H; injection H as <- <-; lia|]. cbn [read_data concat] in *.
    destruct f as [|c f]; [discriminate|]. set (g := c :: f) in *.
    destruct (Nat.leb (length g) (S n)) eqn:E.
    + apply Nat.leb_le in E. apply IH in H. rewrite app_length. lia.
    + apply Nat.leb_gt in E. assert (fs' = skipn (S n) g :: fs) as -> by congruence. cbn [concat].
      rewrite !app_length, skipn_length. lia.
Qed.

Lemma read_loop_total en : forall fuel fs out, (length (concat fs) < fuel)%nat ->
  match read_loop fuel fs en out with
  | Ok (_, fs') => (length (concat fs') <= length (concat fs))%nat
  | Err _ => True | _ => False end.
Proof.
  induction fuel as [|fuel IH]; intros fs out H; [lia|]. cbn [read_loop].
  destruct (read_full 2 fs [] en) as [[hd fs1]|e] eqn:E; [|exact I]. apply read_full_len in E.
  destruct (unbe hd =? 0); [lia|].
  destruct (read_data _ fs1 [] en) as [[d fs2]|e] eqn:E2; [|exact I]. apply read_data_len in E2.
  specialize (IH fs2 (out ++ d) ltac:(lia)). destruct (read_loop fuel fs2 en (out ++ d)) as [[y fs3]| | |]; auto. lia.
Qed.

Lemma decoder_total v tz r : decoder_decode v tz r <> NoFuel.
Proof.
  unfold decoder_decode, read_message.
  pose proof (read_loop_total (r_end r) (S (length (r_bytes r))) (r_frags r) [] ltac:(unfold r_bytes; lia)) as H.
  destruct (read_loop _ _ _ _) as [[d fs]| | |]; try easy.
  pose proof (decode_total v tz d). destruct (decode v tz d) as [[x y]| | |]; easy.
Qed.

(** C09 *)
Lemma wire_cut v tz p q t r : frames p (q ++ t) -> t <> [] -> nonempty (r_frags r) -> r_bytes r = q ->
  exists e, decoder_decode v tz r = Err e.
Proof.
  intros Hf Ht Hn Hb. pose proof (decoder_decode_flat v tz r Hn) as H. unfold flat_decode in H.
  destruct (frames_cut_read (r_end r) p q t Hf Ht) as [e He]. rewrite Hb, He in H. cbn in H.
  destruct (decoder_decode v tz r) as [[x y]| | |]; try contradiction. eauto.
Qed.

Lemma string_cut v tz s c : zlen s <= 14 ->
  packs signed_limits (PStr (s ++ [c])) (zb (128 + zlen s + 1) :: s ++ [c])
  /\ decode v tz (zb (128 + zlen s + 1) :: s) = Ok (GStr s, []).
Proof.
  intros Hs. pose proof (zlen_nonneg s). split.
  - apply (pk_string signed_limits (s ++ [c]) [zb (128 + zlen s + 1)]). constructor.
    + rewrite zlen_app. change (zlen [c]) with 1. lia.
    + rewrite to_N_zb by lia. rewrite zlen_app. change (zlen [c]) with 1. lia.
  - unfold decode. cbn [decode_fuel].
    rewrite (body_tinystr v tz _ (zb (128 + zlen s + 1)) (zlen s + 1)); [|rewrite to_N_zb by lia; lia|lia].
    destruct (zlen s + 1 =? 0) eqn:E0; [lia|]. unfold pstr, pbind, next. destruct (zlen s + 1 <? 0) eqn:E; [lia|].
    replace (Z.to_nat (Z.min (zlen s + 1) (zlen s))) with (length s) by (unfold zlen; lia).
    now rewrite firstn_all, skipn_all.
Qed.

(** C10 *)
Lemma chunked_zero pl w : chunked 0 pl w -> pl = [] /\ exists n, w = concat (repeat [x00; x00] n).
Proof.
  induction 1 as [|c p w Hc _ [-> [n ->]]]; [split; [reflexivity|now exists 0%nat]|].
  assert (c = []) as -> by (destruct c; [reflexivity|rewrite zlen_cons in Hc; pose proof (zlen_nonneg c); lia]).
  split; [reflexivity|]. exists (S n). reflexivity.
Qed.

Lemma chunk_zero v x o : go_typed x = true -> snd (encode v x) = None ->
  exists w, encoder_encode v (encoder_on o None 0) x = (encoder_on (o ++ [x00; x00] ++ w) None 0, None)
            /\ w <> [] /\ forall p, ~ frames p ([x00; x00] ++ w).
Proof.
  intros Ht Hs.
  assert (Hp : payload v x <> []) by (apply (packs_nonempty format_limits (lower v x)), encode_valid; assumption).
  unfold payload in Hp. unfold encoder_encode. destruct (encode v x) as [ws fin] eqn:Ee. cbn in Hs, Hp. subst fin.
  destruct ws as [|p ws]; [easy|].
  unfold encoder_on, new_encoder. cbn [run_writes].
  unfold enc_write at 1. cbn [e_buf e_chunk e_w app]. rewrite (proj2 (Z.geb_le _ _) (zlen_nonneg p)).
  unfold w_write at 1. cbn [w_left w_out]. cbn [Z.to_nat firstn skipn].
  unfold w_write at 1. cbn [w_left w_out]. rewrite app_nil_r. change (be 2 0) with [x00; x00].
  destruct (run_writes_ok 0 ws ltac:(lia) (o ++ [x00; x00]) p) as [w [buf' [pl [E1 [Hc [Hpl Hz]]]]]]. rewrite E1.
  rewrite flush_ok. exists (w ++ last_chunk buf'). rewrite <- !app_assoc. split; [reflexivity|].
  assert (Hne : w ++ last_chunk buf' <> []).
  { intros E. apply app_eq_nil in E as [_ E]. destruct buf'; discriminate. }
  split; [exact Hne|]. intros q Hf. inversion Hf as [|c h p' w' Hcne Hcl [Hh1 Hh2] Hf' E2 E3].
  - now apply Hne.
  - destruct h as [|a [|b [|]]]; try discriminate. cbn in E3. injection E3 as -> -> _. cbn in Hh2.
    destruct c; [easy|]. rewrite zlen_cons in Hh2. pose proof (zlen_nonneg c). lia.
Qed.

Lemma residual_left_over cs ws : forall r, residual cs r ws = left_over cs r (map zlen ws).
Proof.
  induction ws as [|p ws IH]; intros r; cbn [residual map left_over]; [reflexivity|]. rewrite IH. unfold step_res.
  destruct (r + zlen p >=? cs) eqn:A, (cs <=? r + zlen p) eqn:B; auto; lia.
Qed.
(** The exact condition under which a message is framed. *)
Lemma framed_exactly v cs x o : 1 <= cs <= 65535 -> snd (encode v x) = None ->
  exists w, encoder_encode v (encoder_on o None cs) x = (encoder_on (o ++ w) None cs, None)
            /\ (frames (payload v x) w <-> left_over cs 0 (map zlen (fst (encode v x))) <= 65535).
Proof.
  intros Hcs Hs. destruct (encode_frames_iff v x o cs Hcs Hs) as [w [E H]]. exists w. split; [exact E|].
  rewrite <- residual_left_over. exact H.
Qed.
Lemma string_framed_exactly v s o cs : 6 <= cs <= 65535 -> zlen s <= 4294967295 ->
  exists w, encoder_encode v (encoder_on o None cs) (GStr s) = (encoder_on (o ++ w) None cs, None)
            /\ (frames (payload v (GStr s)) w <-> zlen s <= 65530 + cs).
Proof.
  intros Hcs Hs2. pose proof (zlen_nonneg s) as Hn.
  assert (Hok : snd (encode v (GStr s)) = None).
  { apply encode_accepts; [reflexivity|]. split; [reflexivity|]. split; [|reflexivity]. cbn [lens forallb].
    rewrite size_ok_format by lia. reflexivity. }
  destruct (framed_exactly v cs (GStr s) o ltac:(lia) Hok) as [w [E Hf]]. exists w. split; [exact E|]. rewrite Hf. clear E Hf Hok.
  unfold encode. cbn [lower enc]. unfold enc_str, str_hdr, MaxUint8, MaxUint16, MaxUint32.
  destruct (zlen s <=? 15) eqn:E1; [|destruct ((zlen s >? 15) && (zlen s <=? 255)) eqn:E2;
    [|destruct ((zlen s >? 255) && (zlen s <=? 65535)) eqn:E3;
      [|destruct ((zlen s >? 65535) && (zlen s <=? 4294967295)) eqn:E4; [|lia]]]];
  cbn [w_ok w_then fst snd app map left_over]; rewrite ?zlen_cons, ?zlen_be; change (zlen (@nil byte)) with 0; cbn [Z.of_nat Pos.of_succ_nat Pos.succ];
  repeat match goal with |- context [if ?c then _ else _] => destruct c eqn:? end; lia.
Qed.

Lemma long_string_unframed v s o cs : 1 <= cs <= 65535 -> 65535 + cs < zlen s -> zlen s <= 4294967295 ->
  exists w, encoder_encode v (encoder_on o None cs) (GStr s) = (encoder_on (o ++ w) None cs, None)
            /\ ~ frames (payload v (GStr s)) w.
Proof.
  intros Hcs Hs Hs2.
  assert (Hok : snd (encode v (GStr s)) = None).
  { apply encode_accepts; [reflexivity|]. split; [reflexivity|]. split; [|reflexivity]. cbn [lens forallb].
    rewrite size_ok_format by lia. reflexivity. }
  destruct (encode_frames_iff v (GStr s) o cs Hcs Hok) as [w [E Hf]]. exists w. split; [exact E|].
  intros H. apply Hf in H. clear E Hf.
  assert (Ew : fst (encode v (GStr s)) = [[zb 210]; be 4 (int32 (zlen s)); s]).
  { unfold encode. cbn [lower enc]. unfold enc_str, str_hdr, MaxUint8, MaxUint16, MaxUint32, String32Marker.
    destruct (zlen s <=? 15) eqn:E1; [lia|].
    destruct ((zlen s >? 15) && (zlen s <=? 255)) eqn:E2; [lia|].
    destruct ((zlen s >? 255) && (zlen s <=? 65535)) eqn:E3; [lia|].
    destruct ((zlen s >? 65535) && (zlen s <=? 4294967295)) eqn:E4; [reflexivity|lia]. }
  rewrite Ew in H. cbn [residual] in H. rewrite zlen_cons, zlen_be in H. change (zlen (@nil byte)) with 0 in H.
  unfold step_res in H.
  repeat match type of H with context [if ?c then _ else _] => destruct c eqn:?; cbn zeta in H end; lia.
Qed.

(** C11 *)
Lemma fragmentation v tz r1 r2 : nonempty (r_frags r1) -> nonempty (r_frags r2) ->
  r_bytes r1 = r_bytes r2 -> r_end r1 = r_end r2 ->
  match decoder_decode v tz r1, decoder_decode v tz r2 with
  | Ok (x, a), Ok (y, b) => x = y /\ r_bytes a = r_bytes b
  | Err e, Err e' => e = e'
  | Panic, Panic => True
  | _, _ => False
  end.
Proof.
  intros H1 H2 Hb He. pose proof (decoder_decode_flat v tz r1 H1) as A.
  pose proof (decoder_decode_flat v tz r2 H2) as B. rewrite <- Hb, <- He in B.
  pose proof (decoder_total v tz r1) as T.
  destruct (flat_decode v tz (r_bytes r1) (r_end r1)) as [[x b]| | |];
    destruct (decoder_decode v tz r1) as [[x1 a1]| | |]; cbn in A; try contradiction;
    destruct (decoder_decode v tz r2) as [[x2 a2]| | |]; cbn in B; try contradiction; auto; try congruence.
  destruct A as [-> [<- _]], B as [-> [-> _]]. auto.
Qed.

(** C14, C15 *)
Definition poison (cs : Z) : gval := GSlice [GStr (repeat x61 (Z.to_nat cs)); GOther].

Lemma poison_refused v cs : 0 <= cs <= 65535 ->
  (exists e, snd (encode v (poison cs)) = Some e) /\ cs < zlen (payload v (poison cs)).
Proof.
  intros Hcs. unfold payload, encode, poison. cbn [lower map]. rewrite enc_list_eq.
  set (s := repeat x61 (Z.to_nat cs)). assert (Hz : zlen s = cs) by (unfold s, zlen; rewrite repeat_length; lia).
  change (zlen [PStr s; PErr TUnrecognizedType]) with 2. cbn [enc_all enc].
  change (slice_hdr 2) with (w_ok [[zb 146]]).
  assert (H : exists hd, enc_str s = (hd ++ [s], None)).
  { destruct (str_hdr_ok (zlen s) ltac:(lia)) as [H _]. unfold enc_str. destruct (str_hdr (zlen s)) as [hd e].
    cbn in H. subst e. exists hd. reflexivity. }
  destruct H as [hd ->]. unfold w_then, w_ok, w_err. cbn [fst snd app]. split; [eauto|].
  cbn [concat]. rewrite ?concat_app. cbn [concat]. rewrite ?zlen_app. rewrite ?app_nil_r. rewrite ?concat_app, ?zlen_app. cbn [concat]. rewrite ?app_nil_r, ?zlen_app, ?Hz.
  change (zlen [zb 146]) with 1. pose proof (zlen_nonneg (concat hd)). change (zlen (@nil byte)) with 0. lia.
Qed.

Lemma poison_leaks v cs o : 1 <= cs <= 65535 ->
  exists w, fst (encoder_encode v (encoder_on o None cs) (poison cs))
            = mkEncoder (mkWriter (o ++ w) None) (e_buf (fst (encoder_encode v (encoder_on o None cs) (poison cs)))) cs
  /\ w <> [] /\ snd (encoder_encode v (encoder_on o None cs) (poison cs)) <> None.
Proof.
  intros Hcs. destruct (poison_refused v cs ltac:(lia)) as [[e He] Hl].
  destruct (encode_refused v (poison cs) o cs [] e ltac:(lia) He) as [w [buf' [pl [E _]]]].
  destruct (refused_clean_iff v (poison cs) o cs e ltac:(lia) He) as [Hc _].
  unfold encoder_on, new_encoder in *. rewrite E in *. cbn [fst snd e_w e_buf w_out] in *.
  exists w. split; [reflexivity|]. split; [|discriminate]. intros ->. rewrite app_nil_r in Hc.
  destruct Hc as [Hc _]. specialize (Hc eq_refl). lia.
Qed.

Lemma reuse_after v x y o cs e : snd (encode v x) = Some e -> fst (encode v x) = [] ->
  encoder_encode v (fst (encoder_encode v (encoder_on o None cs) x)) y
  = encoder_encode v (encoder_on o None cs) y.
Proof. intros H1 H2. rewrite (refused_first v x e cs o H1 H2). reflexivity. Qed.

Lemma chunked_frames_any cs pl w buf : 1 <= cs <= 65535 -> chunked cs pl w -> zlen buf <= 65535 ->
  frames (pl ++ buf) (w ++ last_chunk buf).
Proof. intros Hcs Hc Hb. eapply chunked_frames; eauto. now apply last_chunk_frames. Qed.

Lemma reuse_mixed v x y o cs e :
  snd (encode v x) = Some e -> snd (encode v y) = None ->
  zlen (payload v x) < cs <= 65535 -> zlen (payload v x) + zlen (payload v y) <= 65535 ->
  exists w, fst (encoder_encode v (fst (encoder_encode v (encoder_on o None cs) x)) y)
            = encoder_on (o ++ w) None cs /\ frames (payload v x ++ payload v y) w.
Proof.
  intros Hx Hy Hl Ht. pose proof (zlen_nonneg (payload v x)) as Hnx.
  destruct (refused_clean_iff v x o cs e ltac:(lia) Hx) as [Hc _].
  destruct (encode_refused v x o cs [] e ltac:(lia) Hx) as [w [buf' [pl [E [Hch [Hpl _]]]]]].
  unfold encoder_on, new_encoder in *. rewrite E in *. cbn [fst e_w w_out] in *.
  assert (w = []) as ->.
  { apply (app_inv_head o). rewrite app_nil_r. apply Hc. lia. }
  assert (pl = []) as ->.
  { inversion Hch. reflexivity. }
  cbn [app] in Hpl. subst buf'. rewrite app_nil_r.
  destruct (encode_wire v y o (payload v x) cs ltac:(lia) Hy) as [w [b2 [p2 [E2 [Hc2 [Hp2 Hz2]]]]]].
  rewrite E2. cbn [fst]. exists (w ++ last_chunk b2). split; [reflexivity|]. rewrite payload_wbytes with (x := y).
  rewrite <- Hp2. apply (chunked_frames_any cs); [lia|exact Hc2|].
  apply (f_equal zlen) in Hp2. rewrite !zlen_app in Hp2. pose proof (zlen_nonneg p2).
  unfold payload in *. unfold wbytes in *. lia.
Qed.

(** C16 *)
Lemma map_order v tz m m' : Permutation m m' -> returns v (GMap m) ->
  exists r r', decode v tz (payload v (GMap m)) = Ok (GMap r, [])
  /\ decode v tz (payload v (GMap m')) = Ok (GMap r', [])
  /\ Permutation r r' /\ (forall k, map_get r k = map_get r' k).
Proof.
  intros HP Hr.
  assert (Hro : reorder (GMap m) (GMap m')).
  { apply ro_map. eapply rp_perm; [exact HP|]. clear. induction m' as [|[k x] m' IH]; constructor; auto. constructor. }
  destruct (reorder_returns v _ _ Hro Hr) as [Hr' _].
  destruct (returns_ok v tz _ Hr) as [_ D]. destruct (returns_ok v tz _ Hr') as [_ D'].
  cbn [received] in D, D'. eexists _, _. split; [exact D|]. split; [exact D'|].
  assert (HP' : Permutation (map (fun kv => (fst kv, rcv (snd kv))) m) (map (fun kv => (fst kv, rcv (snd kv))) m'))
    by now apply Permutation_map.
  split; [exact HP'|]. intros k. apply map_get_perm; [|exact HP'].
  destruct Hr as [Ht _]. cbn [go_typed] in Ht. apply andb_prop in Ht as [Ht _]. apply nodupb_NoDup in Ht.
  rewrite map_map. cbn [fst]. exact Ht.
Qed.

Lemma map_order_deep v tz x y : reorder x y -> returns v x ->
  exists gx gy, decode v tz (payload v x) = Ok (gx, []) /\ decode v tz (payload v y) = Ok (gy, [])
  /\ reorder gx gy.
Proof.
  intros H Hr. destruct (reorder_returns v _ _ H Hr) as [Hr' Hro].
  destruct (returns_ok v tz _ Hr) as [_ D]. destruct (returns_ok v tz _ Hr') as [_ D']. eauto.
Qed.

(** C18 *)
Lemma floats_survive v tz b : is_bits64 b = true ->
  decode v tz (payload v (GFloat64 b)) = Ok (GFloat64 b, []).
Proof. intros H. apply returns_ok. repeat split. exact H. Qed.
Lemma floats32_survive v tz b : 0 <= b < 2 ^ 32 ->
  exists b', decode v tz (payload v (GFloat32 b)) = Ok (GFloat64 b', []) /\ num64 b' = num32 b.
Proof.
  intros H. exists (f32_to_f64 b). split; [|now apply widen_exact].
  apply (returns_ok v tz (GFloat32 b)). repeat split. cbn [go_typed].
  apply andb_true_intro. split; [apply Z.leb_le|apply Z.ltb_lt]; apply H.
Qed.

(** C24 *)
Lemma point_not_resent v srid x y : exists e, encode v (GPoint2D false srid x y) = ([], Some e).
Proof. eexists. reflexivity. Qed.
Lemma point3_not_resent v srid x y z : exists e, encode v (GPoint3D false srid x y z) = ([], Some e).
Proof. eexists. reflexivity. Qed.

(** C03, C12 with the float32 widening given by its numeric meaning *)
Lemma value_roundtrip v tz cs x o : returns v x -> modest v cs x ->
  exists widen, exact_widening widen /\
  exists w, encoder_encode v (encoder_on o None cs) x = (encoder_on (o ++ w) None cs, None)
  /\ frames (payload v x) w
  /\ forall r rest, nonempty (r_frags r) -> r_bytes r = w ++ rest ->
     exists r', decoder_decode v tz r = Ok (received widen x, r') /\ r_bytes r' = rest.
Proof.
  intros Hr Hm. exists f32_to_f64. split; [exact widen_exact|].
  destruct (roundtrip_wire v tz cs x o Hr Hm) as [w [E [Hf H]]]. exists w. split; [exact E|]. split; [exact Hf|].
  intros r rest Hn Hb. destruct (H r rest Hn Hb) as [r' [H1 [H2 _]]]. eauto.
Qed.

Lemma value_sequence v tz cs xs : Forall (returns v) xs -> Forall (modest v cs) xs ->
  exists widen, exact_widening widen /\
  forall o, exists w, encode_all v (encoder_on o None cs) xs = (encoder_on (o ++ w) None cs, None)
  /\ forall r rest, nonempty (r_frags r) -> r_bytes r = w ++ rest ->
     exists r', decode_n v tz (length xs) r = Ok (map (received widen) xs, r') /\ r_bytes r' = rest.
Proof.
  intros Hr Hm. exists f32_to_f64. split; [exact widen_exact|]. intros o.
  destruct (sequence_wire v tz cs xs Hr Hm o) as [w [E H]]. exists w. split; [exact E|].
  intros r rest Hn Hb. destruct (H r rest Hn Hb) as [r' [H1 [H2 _]]]. eauto.
Qed.

Lemma encoder_valid_item v x : go_typed x = true -> snd (encode v x) = None ->
  exists widen, exact_widening widen /\
  exists p, packs format_limits p (payload v x) /\ (plain v x = true -> p = item widen x).
Proof. intros Ht Hs. exists f32_to_f64. split; [exact widen_exact|]. now apply encoder_valid. Qed.

(** C20 *)
Lemma datetime_roundtrip tz s n off cs o :
  is_int64 s = true -> is_int64 (s + off) = true -> 0 <= n < 1000000000 -> - 2 ^ 31 <= off < 2 ^ 31 ->
  8 <= cs <= 65535 ->
  exists w, encoder_encode V2 (encoder_on o None cs) (GTime s n off) = (encoder_on (o ++ w) None cs, None)
  /\ forall r rest, nonempty (r_frags r) -> r_bytes r = w ++ rest ->
     exists r', decoder_decode V2 tz r = Ok (GTime s n off, r') /\ r_bytes r' = rest.
Proof.
  intros Hs Hl Hn Ho Hcs.
  assert (is_int64 off = true).
  { unfold is_int64. change (2 ^ 31) with 2147483648 in Ho. change (2 ^ 63) with 9223372036854775808. lia. }
  destruct (roundtrip_wire V2 tz cs (GTime s n off) o) as [w [E [_ H2]]].
  - split; [|split; [|reflexivity]].
    + cbn [go_typed]. rewrite Hs, H. lia.
    + cbn [plain]. rewrite Hl. cbn [andb]. lia.
  - left. split; [assumption|constructor].
  - exists w. split; [exact E|]. intros r rest Hne Hb. destruct (H2 r rest Hne Hb) as [r' [A [B _]]]. eauto.
Qed.

(** C24 *)
Lemma point_roundtrip tz srid x y : is_int64 srid = true -> is_bits64 x = true -> is_bits64 y = true ->
  decode V2 tz (payload V2 (GPoint2D true srid x y)) = Ok (GPoint2D false srid x y, []).
Proof.
  intros H1 H2 H3. apply (returns_ok V2 tz (GPoint2D true srid x y)). repeat split.
  cbn [go_typed]. now rewrite H1, H2, H3.
Qed.
Lemma point3_roundtrip tz srid x y z :
  is_int64 srid = true -> is_bits64 x = true -> is_bits64 y = true -> is_bits64 z = true ->
  decode V2 tz (payload V2 (GPoint3D true srid x y z)) = Ok (GPoint3D false srid x y z, []).
Proof.
  intros H1 H2 H3 H4. apply (returns_ok V2 tz (GPoint3D true srid x y z)). repeat split.
  cbn [go_typed]. now rewrite H1, H2, H3, H4.
Qed.

(** C14 *)
Lemma refused_leak v cs o : 1 <= cs <= 65535 ->
  exists x e, snd (encode v x) = Some e
  /\ snd (encoder_encode v (encoder_on o None cs) x) = Some e
  /\ w_out (e_w (fst (encoder_encode v (encoder_on o None cs) x))) <> o.
Proof.
  intros Hcs. exists (poison cs). destruct (poison_refused v cs ltac:(lia)) as [[e He] Hl].
  exists e. split; [exact He|]. destruct (refused_clean_iff v (poison cs) o cs e ltac:(lia) He) as [Hc Hr].
  split; [exact Hr|]. intros H. apply Hc in H. lia.
Qed.
