(** Temporal structures, agreement of the two encoders, and bad size windows (proofs). *)
From Coq Require Import ZArith List Bool Lia ZifyBool.
From Verif Require Import Bytes BytesFacts GoVal GoErr Encoder Decoder SpecPack SpecValues SpecCodec
  PackFacts DecodeFacts ValueFacts.
Import ListNotations.
Open Scope Z_scope.
Ltac Zify.zify_post_hook ::= Z.div_mod_to_equations.

Lemma decode_struct_reads v tz sig fs gs bs rest :
  packs signed_limits (PStruct sig fs) bs -> all_some (map (meaning v) fs) = Some gs ->
  exists sb body dec, bz sb = sig /\ decode v tz (bs ++ rest) = dec_struct v tz dec (sb :: body)
                      /\ reads dec gs body rest.
Proof.
  intros Hb Hm. inversion Hb as [| | | | | | | | | | | |? ? h sb bs' Hh Hsig Hs]; subst.
  exists sb, (bs' ++ rest), (decode_fuel v tz (length ((h ++ sb :: bs') ++ rest))). split; [reflexivity|].
  unfold decode. cbn [decode_fuel]. split.
  - rewrite <- app_assoc at 2. rewrite (hdr_struct signed_limits _ _ _ (zlen fs)); [|apply zlen_nonneg|assumption].
    reflexivity.
  - eapply reads_ok; [|exact Hs|exact Hm|].
    + apply Forall_forall. intros p _. apply decode_packs.
    + rewrite !app_length. cbn [length]. lia.
Qed.

(** A date-time with zone id: the instant is computed with the offset in force at the local seconds. *)
Lemma decode_zoned tz t n id off zone bs rest :
  packs signed_limits (zoned_item t n id off) bs -> tz id = Some zone -> 0 <= n < 1000000000 ->
  -2147483648 <= zone (t + off) < 2147483648 ->
  decode V2 tz (bs ++ rest)
  = Ok (GTime (t + off - zone (t + off)) n (zone (t + off - zone (t + off))), rest).
Proof.
  intros Hb Hz Hn Ho.
  destruct (decode_struct_reads V2 tz 102 _ [GInt KInt64 (t + off); GInt KInt64 n; GStr id] bs rest Hb eq_refl)
    as [sb [body [dec [Hs [-> R]]]]].
  unfold dec_struct. rewrite Hs. cbv zeta.
  change (dec_datetime_zone tz dec body
          = Ok (GTime (t + off - zone (t + off)) n (zone (t + off - zone (t + off))), rest)).
  unfold dec_datetime_zone. rd. rewrite Hz.
  destruct (time_roundtrip_dec (t + off) n (zone (t + off)) Hn Ho) as [Hu Ha]. rewrite Hu, Ha. reflexivity.
Qed.

Theorem zoned_right tz t n id zone bs rest :
  packs signed_limits (zoned_item t n id (zone t)) bs -> tz id = Some zone -> 0 <= n < 1000000000 ->
  -2147483648 <= zone t < 2147483648 -> zone (t + zone t) = zone t ->
  decode V2 tz (bs ++ rest) = Ok (GTime t n (zone t), rest).
Proof.
  intros Hb Hz Hn Ho Hs. rewrite (decode_zoned tz t n id (zone t) zone) by (try assumption; lia).
  rewrite Hs. replace (t + zone t - zone t) with t by lia. reflexivity.
Qed.

(** ... and the instant is wrong whenever the two offsets differ. *)
Theorem zoned_wrong tz t n id zone bs rest :
  packs signed_limits (zoned_item t n id (zone t)) bs -> tz id = Some zone -> 0 <= n < 1000000000 ->
  -2147483648 <= zone (t + zone t) < 2147483648 -> zone (t + zone t) <> zone t ->
  exists t' off', decode V2 tz (bs ++ rest) = Ok (GTime t' n off', rest) /\ t' <> t.
Proof.
  intros Hb Hz Hn Ho Hs. rewrite (decode_zoned tz t n id (zone t) zone) by assumption.
  eexists _, _. split; [reflexivity|]. lia.
Qed.

(** A duration sent as a parameter is never accepted back. *)
Theorem duration_sent tz d rest : is_int64 d = true ->
  snd (encode V2 (GDuration d)) = None
  /\ decode V2 tz (payload V2 (GDuration d) ++ rest) = Err (ENew TCast).
Proof.
  intros Hd.
  assert (Hp : packable signed_limits (lower V2 (GDuration d)) = true).
  { rewrite packable_lower by exact Hd. reflexivity. }
  destruct (enc_packs signed_limits _ signed_limits_ok Hp) as [Hs Hpk]. split; [exact Hs|].
  change (wbytes (enc (lower V2 (GDuration d)))) with (payload V2 (GDuration d)) in Hpk.
  cbn [lower] in Hpk. unfold duration_fields in Hpk.
  match type of Hpk with packs _ (PStruct _ [PFloat ?a; PFloat ?b; PFloat ?c; PInt ?e]) _ =>
    destruct (decode_struct_reads V2 tz _ _ [GFloat64 a; GFloat64 b; GFloat64 c; GInt KInt64 e] _ rest Hpk eq_refl)
      as [sb [body [dec [Hsb [-> R]]]]] end.
  unfold dec_struct. rewrite Hsb. cbv zeta. change (dec_duration dec body = Err (ENew TCast)).
  unfold dec_duration. rd. reflexivity.
Qed.

(** A duration the server sends is decoded to the product of its components. *)
Theorem duration_received tz m d s n bs rest :
  packs signed_limits (duration_item m d s n) bs ->
  decode V2 tz (bs ++ rest) = Ok (GDuration (int64 (int64 (int64 (m * d) * s) * n)), rest).
Proof.
  intros Hb.
  destruct (decode_struct_reads V2 tz 69 _ [GInt KInt64 m; GInt KInt64 d; GInt KInt64 s; GInt KInt64 n] bs rest Hb eq_refl)
    as [sb [body [dec [Hs [-> R]]]]].
  unfold dec_struct. rewrite Hs. cbv zeta. unfold dec_duration.
  match goal with |- ?l = ?r => change ((a <- dec;; months <- as_int64 TCast a;;
       b <- dec;; days <- as_int64 TCast b;;
       c <- dec;; seconds <- as_int64 TCast c;;
       d <- dec;; nanos <- as_int64 TCast d;;
       pret (GDuration (int64 (int64 (int64 (months * days) * seconds) * nanos)))) body = r) end.
  rd. reflexivity.
Qed.

Corollary duration_lost tz d s n bs rest :
  packs signed_limits (duration_item 0 d s n) bs ->
  decode V2 tz (bs ++ rest) = Ok (GDuration 0, rest).
Proof. intros H. rewrite (duration_received tz 0 d s n) by assumption. reflexivity. Qed.

(** ** The two encoders agree on values without temporal parts *)

Lemma lower_versions x : atemporal x = true -> lower V1 x = lower V2 x.
Proof.
  assert (P : forall m : list (bytes * gval), Forall (fun kv => atemporal (snd kv) = true -> lower V1 (snd kv) = lower V2 (snd kv)) m ->
    forallb (fun kv : bytes * gval => atemporal (snd kv)) m = true ->
    map (fun kv => (fst kv, lower V1 (snd kv))) m = map (fun kv => (fst kv, lower V2 (snd kv))) m).
  { induction 1 as [|[k y] m Hx _ IH]; cbn; intros H; [reflexivity|]. bsplit. f_equal; [|auto].
    f_equal. apply Hx. assumption. }
  assert (Q : forall l, Forall (fun x => atemporal x = true -> lower V1 x = lower V2 x) l ->
    forallb atemporal l = true -> map (lower V1) l = map (lower V2) l).
  { induction 1; cbn; intros H'; [reflexivity|]. bsplit. f_equal; auto. }
  induction x using gval_ind'; cbn [atemporal lower]; intros Ha; try reflexivity; try discriminate; bsplit;
    rewrite ?P, ?Q by assumption; reflexivity.
Qed.

Theorem encode_versions x : atemporal x = true -> encode V1 x = encode V2 x.
Proof. intros H. unfold encode. now rewrite lower_versions. Qed.

(** ** Sizes whose top bit is set *)

(** Sizes that a size field of k bytes holds but a signed k-byte number does not. *)
Lemma read_size_top k n rest : (0 < k)%nat -> 2 ^ (8 * Z.of_nat k - 1) <= n < 2 ^ (8 * Z.of_nat k) ->
  read_size k (be k n ++ rest) = Ok (n - 2 ^ (8 * Z.of_nat k), rest).
Proof.
  intros Hk Hn. unfold read_size, read_int, pbind. rewrite read_be_app by apply be_length.
  cbn [rwrap]. rewrite <- unbe_be_value, unbe_be. rewrite to_signed_mod.
  unfold to_signed. rewrite pow256. rewrite Z.mod_small by lia.
  assert (2 ^ (8 * Z.of_nat k) = 2 * 2 ^ (8 * Z.of_nat k - 1)).
  { rewrite <- Z.pow_succ_r by lia. f_equal. lia. }
  set (h := 2 ^ (8 * Z.of_nat k - 1)) in *. rewrite H in *. clearbody h.
  replace (2 * h / 2) with h by lia. destruct (n <? h) eqn:E; [lia|reflexivity].
Qed.

Lemma hdr_top v tz dec tiny m8 m16 m32 n rest : top_bit n ->
  exists m k, (m = m8 /\ k = 1%nat \/ m = m16 /\ k = 2%nat \/ m = m32 /\ k = 4%nat)
  /\ hdr_bytes tiny m8 m16 (Some m32) n = m :: be k n
  /\ 2 ^ (8 * Z.of_nat k - 1) <= n < 2 ^ (8 * Z.of_nat k)
  /\ dec_body v tz dec (hdr_bytes tiny m8 m16 (Some m32) n ++ rest)
     = dec_body v tz dec (m :: be k n ++ rest).
Proof.
  intros H. unfold hdr_bytes, top_bit in *.
  destruct (n <=? 15) eqn:E1; [lia|].
  destruct (n <=? 255) eqn:E2; [exists m8, 1%nat; repeat split; cbn; auto; lia|].
  destruct (n <=? 65535) eqn:E3; [exists m16, 2%nat; repeat split; cbn; auto; lia|].
  exists m32, 4%nat; repeat split; cbn; auto; lia.
Qed.

(** Strings in these windows are accepted by the encoder and crash the decoder. *)
Theorem string_top_bit v tz s rest : top_bit (zlen s) ->
  snd (encode v (GStr s)) = None /\ decode v tz (payload v (GStr s) ++ rest) = Panic.
Proof.
  intros Ht. assert (Hr : 0 <= zlen s <= 4294967295) by (unfold top_bit in Ht; lia).
  destruct (str_hdr_ok (zlen s) Hr) as [H1 H2].
  unfold payload, encode. cbn [lower enc]. unfold enc_str. split.
  - apply w_then_None. split; [assumption|reflexivity].
  - change (concat (fst (w_then (str_hdr (zlen s)) (w_ok [s]))))
      with (wbytes (w_then (str_hdr (zlen s)) (w_ok [s]))).
    rewrite w_then_bytes, H2 by assumption. rewrite <- app_assoc. unfold decode. cbn [decode_fuel].
    generalize (decode_fuel v tz (length (hdr_bytes 128 xd0 xd1 (Some xd2) (zlen s) ++ wbytes (w_ok [s]) ++ rest))).
    intros dec.
    destruct (hdr_top v tz dec 128 xd0 xd1 xd2 (zlen s) (wbytes (w_ok [s]) ++ rest) Ht) as [m [k [Hm [E1 [Hk ->]]]]].
    clear E1 H1 H2.
    destruct Hm as [[-> ->]|[[-> ->]|[-> ->]]];
      [rewrite body_str8|rewrite body_str16|rewrite body_str32]; unfold pbind;
      rewrite read_size_top by (try lia; assumption); unfold pstr, pbind, next;
      (match goal with |- context [?a <? 0] => destruct (a <? 0) eqn:E; [reflexivity|lia] end).
Qed.

(** The same for lists. *)
Theorem slice_top_bit v tz l rest : top_bit (zlen l) -> go_typed (GSlice l) = true ->
  snd (encode v (GSlice l)) = None -> decode v tz (payload v (GSlice l) ++ rest) = Panic.
Proof.
  intros Ht _ Hs. assert (Hr : 0 <= zlen l <= 4294967295) by (unfold top_bit in Ht; lia).
  destruct (slice_hdr_ok (zlen l) Hr) as [H1 H2].
  unfold payload, encode in *. cbn [lower] in *. rewrite enc_list_eq in *. rewrite zlen_map in *.
  change (concat (fst (w_then (slice_hdr (zlen l)) (enc_all (map (lower v) l)))))
    with (wbytes (w_then (slice_hdr (zlen l)) (enc_all (map (lower v) l)))).
  rewrite w_then_bytes, H2 by assumption. rewrite <- app_assoc. unfold decode. cbn [decode_fuel].
  match goal with |- dec_body v tz ?d _ = _ => generalize d end. intros dec.
  match goal with |- dec_body v tz dec (_ ++ ?r) = _ =>
    destruct (hdr_top v tz dec 144 xd4 xd5 xd6 (zlen l) r Ht) as [m [k [Hm [E1 [Hk ->]]]]] end.
  clear E1 H1 H2.
  destruct Hm as [[-> ->]|[[-> ->]|[-> ->]]];
    [rewrite body_sl8|rewrite body_sl16|rewrite body_sl32]; unfold pbind;
    rewrite read_size_top by (try lia; assumption); unfold dec_slice;
    (match goal with |- context [?a <? 0] => destruct (a <? 0) eqn:E; [reflexivity|lia] end).
Qed.

(** Maps in these windows decode to the empty map with all entries left unread. *)
Theorem map_top_bit v tz m rest : top_bit (zlen m) -> snd (encode v (GMap m)) = None ->
  exists unread, decode v tz (payload v (GMap m) ++ rest) = Ok (GMap [], unread ++ rest) /\ unread <> [].
Proof.
  intros Ht Hs. assert (Hr : 0 <= zlen m <= 4294967295) by (unfold top_bit in Ht; lia).
  destruct (map_hdr_ok (zlen m) Hr) as [H1 H2].
  unfold payload, encode in *. cbn [lower] in *. rewrite enc_map_eq in *. rewrite zlen_map in *.
  set (em := map (fun kv => (fst kv, lower v (snd kv))) m) in *.
  exists (wbytes (enc_entries em)). split.
  - change (concat (fst (w_then (map_hdr (zlen m)) (enc_entries em))))
      with (wbytes (w_then (map_hdr (zlen m)) (enc_entries em))).
    rewrite w_then_bytes, H2 by assumption. rewrite <- app_assoc. unfold decode. cbn [decode_fuel].
    match goal with |- dec_body v tz ?d _ = _ => generalize d end. intros dec.
    match goal with |- dec_body v tz dec (_ ++ ?r) = _ =>
      destruct (hdr_top v tz dec 160 xd8 xd9 xda (zlen m) r Ht) as [mk [k [Hm [E1 [Hk ->]]]]] end.
    clear E1 H1 H2.
    destruct Hm as [[-> ->]|[[-> ->]|[-> ->]]];
      [rewrite body_map8|rewrite body_map16|rewrite body_map32]; unfold pbind;
      rewrite read_size_top by (try lia; assumption); unfold dec_map, pbind; cbn [dec_entries];
      (match goal with |- context [?a <=? 0] => destruct (a <=? 0) eqn:E; [reflexivity|lia] end).
  - apply w_then_None in Hs. destruct Hs as [_ Hs].
    assert (0 < length em)%nat.
    { assert (0 < zlen em) by (unfold em; rewrite zlen_map; unfold top_bit in Ht; lia). unfold zlen in *; lia. }
    destruct em as [|[k x] em']; [cbn in *; lia|]. cbn [enc_entries] in *.
    apply w_then_None in Hs. destruct Hs as [Hs1 Hs2]. rewrite w_then_bytes by assumption.
    unfold enc_str in *. apply w_then_None in Hs1. destruct Hs1 as [Hs1 _]. rewrite w_then_bytes by assumption.
    pose proof (zlen_nonneg k) as Hk. apply str_hdr_inv in Hs1; [|assumption].
    destruct (str_hdr_ok (zlen k) ltac:(lia)) as [_ ->]. unfold hdr_bytes.
    destruct (zlen k <=? 15), (zlen k <=? 255), (zlen k <=? 65535); discriminate.
Qed.
