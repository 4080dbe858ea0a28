(** The decoder accepts valid representations (proofs). *)
From Coq Require Import ZArith List Bool Lia ZifyBool.
From Verif Require Import Bytes BytesFacts GoVal GoErr Encoder Decoder SpecPack PackFacts.
Import ListNotations.
Open Scope Z_scope.
Ltac Zify.zify_post_hook ::= Z.div_mod_to_equations.

(** ** Reading fixed-width numbers *)

Lemma read_be_app n s rest : length s = n -> read_be n (s ++ rest) = Ok (be_value s, rest).
Proof.
  intros H. unfold read_be.
  destruct (Nat.ltb (length (s ++ rest)) n) eqn:E.
  - apply Nat.ltb_lt in E. rewrite app_length in E. lia.
  - subst n. now rewrite firstn_app_exact, skipn_app_exact, unbe_be_value.
Qed.

Lemma to_signed_of_signed n z s : (0 < n)%nat -> signed_be n z s -> to_signed n (be_value s) = z.
Proof.
  intros Hn [Hl [Hr Hv]]. rewrite Hv. unfold to_signed. rewrite pow256.
  replace (8 * Z.of_nat n) with (1 + (8 * Z.of_nat n - 1)) by lia.
  rewrite (Z.pow_add_r 2 1) by lia. change (2 ^ 1) with 2.
  set (m := 2 ^ (8 * Z.of_nat n - 1)) in *.
  replace (2 * m / 2) with m by (rewrite Z.mul_comm, Z.div_mul; lia).
  destruct (z <? 0) eqn:E.
  - rewrite Z.mod_small by lia. destruct (z + 2 * m <? m) eqn:E2; lia.
  - rewrite Z.mod_small by lia. destruct (z <? m) eqn:E2; lia.
Qed.

Lemma read_int_app n z s rest :
  (0 < n)%nat -> signed_be n z s -> read_int n (s ++ rest) = Ok (z, rest).
Proof.
  intros Hn H. unfold read_int, pbind. rewrite read_be_app by apply H.
  unfold pret. now rewrite (to_signed_of_signed n z).
Qed.

Lemma read_size_app n z s rest :
  (0 < n)%nat -> unsigned_be n z s -> 0 <= z < 2 ^ (8 * Z.of_nat n - 1) ->
  read_size n (s ++ rest) = Ok (z, rest).
Proof.
  intros Hn [Hl Hv] Hz. unfold read_size. rewrite (read_int_app n z); [reflexivity|assumption|].
  split; [assumption|]. split; [lia|]. rewrite Hv. destruct (z <? 0) eqn:E; lia.
Qed.

Lemma next_app s rest : next (zlen s) (s ++ rest) = Ok (s, rest).
Proof.
  unfold next. pose proof (zlen_nonneg s). destruct (zlen s <? 0) eqn:E; [lia|].
  rewrite zlen_app. pose proof (zlen_nonneg rest). rewrite Z.min_l by lia.
  unfold zlen. rewrite Nat2Z.id. now rewrite firstn_app_exact, skipn_app_exact.
Qed.

(** ** Marker dispatch *)

Section Dispatch.
  Variable v : ver.
  Variable tz : zones.
  Variable dec : parser gval.

  Lemma body_null b : dec_body v tz dec (xc0 :: b) = Ok (GNil, b). Proof. reflexivity. Qed.
  Lemma body_true b : dec_body v tz dec (xc3 :: b) = Ok (GBool true, b). Proof. reflexivity. Qed.
  Lemma body_false b : dec_body v tz dec (xc2 :: b) = Ok (GBool false, b). Proof. reflexivity. Qed.
  Lemma body_int8 b : dec_body v tz dec (xc8 :: b) = (x <- read_int 1 ;; pret (GInt KInt64 x)) b.
  Proof. reflexivity. Qed.
  Lemma body_int16 b : dec_body v tz dec (xc9 :: b) = (x <- read_int 2 ;; pret (GInt KInt64 x)) b.
  Proof. reflexivity. Qed.
  Lemma body_int32 b : dec_body v tz dec (xca :: b) = (x <- read_int 4 ;; pret (GInt KInt64 x)) b.
  Proof. reflexivity. Qed.
  Lemma body_int64 b : dec_body v tz dec (xcb :: b) = (x <- read_int 8 ;; pret (GInt KInt64 x)) b.
  Proof. reflexivity. Qed.
  Lemma body_float b : dec_body v tz dec (xc1 :: b) = (x <- read_be 8 ;; pret (GFloat64 x)) b.
  Proof. reflexivity. Qed.
  Lemma body_str8 b : dec_body v tz dec (xd0 :: b) = (n <- read_size 1 ;; pstr n) b.
  Proof. reflexivity. Qed.
  Lemma body_str16 b : dec_body v tz dec (xd1 :: b) = (n <- read_size 2 ;; pstr n) b.
  Proof. reflexivity. Qed.
  Lemma body_str32 b : dec_body v tz dec (xd2 :: b) = (n <- read_size 4 ;; pstr n) b.
  Proof. reflexivity. Qed.
  Lemma body_sl8 b : dec_body v tz dec (xd4 :: b) = (n <- read_size 1 ;; dec_slice dec n) b.
  Proof. reflexivity. Qed.
  Lemma body_sl16 b : dec_body v tz dec (xd5 :: b) = (n <- read_size 2 ;; dec_slice dec n) b.
  Proof. reflexivity. Qed.
  Lemma body_sl32 b : dec_body v tz dec (xd6 :: b) = (n <- read_size 4 ;; dec_slice dec n) b.
  Proof. reflexivity. Qed.
  Lemma body_map8 b : dec_body v tz dec (xd8 :: b) = (n <- read_size 1 ;; dec_map dec n) b.
  Proof. reflexivity. Qed.
  Lemma body_map16 b : dec_body v tz dec (xd9 :: b) = (n <- read_size 2 ;; dec_map dec n) b.
  Proof. reflexivity. Qed.
  Lemma body_map32 b : dec_body v tz dec (xda :: b) = (n <- read_size 4 ;; dec_map dec n) b.
  Proof. reflexivity. Qed.
  Lemma body_st8 b : dec_body v tz dec (xdc :: b) = (n <- read_size 1 ;; dec_struct v tz dec) b.
  Proof. reflexivity. Qed.
  Lemma body_st16 b : dec_body v tz dec (xdd :: b) = (n <- read_size 2 ;; dec_struct v tz dec) b.
  Proof. reflexivity. Qed.

  Ltac nibble n :=
    let Hn := fresh in
    assert (Hn : n = 0 \/ n = 1 \/ n = 2 \/ n = 3 \/ n = 4 \/ n = 5 \/ n = 6 \/ n = 7 \/ n = 8
               \/ n = 9 \/ n = 10 \/ n = 11 \/ n = 12 \/ n = 13 \/ n = 14 \/ n = 15) by lia;
    repeat (destruct Hn as [-> | Hn]; [reflexivity|]); subst n; reflexivity.

  Lemma tiny_byte m t n : Z.of_N (Byte.to_N m) = t + n -> m = zb (t + n).
  Proof. intros H. apply bz_inj. rewrite bz_zb. change (bz m = t + n) in H.
         pose proof (bz_range m). rewrite Z.mod_small; lia. Qed.

  Lemma body_tinystr m n b : Z.of_N (Byte.to_N m) = 128 + n -> 0 <= n <= 15 ->
    dec_body v tz dec (m :: b) = if n =? 0 then Ok (GStr [], b) else pstr n b.
  Proof. intros H Hn. apply tiny_byte in H. subst m. nibble n. Qed.
  Lemma body_tinyslice m n b : Z.of_N (Byte.to_N m) = 144 + n -> 0 <= n <= 15 ->
    dec_body v tz dec (m :: b) = dec_slice dec n b.
  Proof. intros H Hn. apply tiny_byte in H. subst m. nibble n. Qed.
  Lemma body_tinymap m n b : Z.of_N (Byte.to_N m) = 160 + n -> 0 <= n <= 15 ->
    dec_body v tz dec (m :: b) = dec_map dec n b.
  Proof. intros H Hn. apply tiny_byte in H. subst m. nibble n. Qed.
  Lemma body_tinystruct m n b : Z.of_N (Byte.to_N m) = 176 + n -> 0 <= n <= 15 ->
    dec_body v tz dec (m :: b) = dec_struct v tz dec b.
  Proof. intros H Hn. apply tiny_byte in H. subst m. nibble n. Qed.

  Lemma body_tinyint m z b : signed_be 1 z [m] -> -16 <= z <= 127 ->
    dec_body v tz dec (m :: b) = Ok (GInt KInt64 z, b).
  Proof.
    intros H Hz. pose proof (to_signed_of_signed 1 z [m] ltac:(lia) H) as Hs.
    destruct H as [_ [_ H]]. cbn [be_value length] in H, Hs.
    change (256 ^ Z.of_nat 0) with 1 in *.
    rewrite Z.add_0_r, Z.mul_1_r in *. change (Z.of_N (Byte.to_N m)) with (bz m) in *.
    change (2 ^ (8 * Z.of_nat 1)) with 256 in H.
    unfold dec_body, int8. rewrite Hs.
    unfold NilMarker, TrueMarker, FalseMarker.
    destruct (bz m =? 0xC0) eqn:E1; [destruct (z <? 0) eqn:?; lia|].
    destruct (bz m =? 0xC3) eqn:E2; [destruct (z <? 0) eqn:?; lia|].
    destruct (bz m =? 0xC2) eqn:E3; [destruct (z <? 0) eqn:?; lia|].
    replace ((z >=? -16) && (z <=? 127)) with true by lia. reflexivity.
  Qed.
End Dispatch.

(** ** Headers *)

Lemma hdr_str v tz dec s h rest :
  string_header signed_limits (zlen s) h ->
  dec_body v tz dec (h ++ s ++ rest) = Ok (GStr s, rest).
Proof.
  intros H. pose proof (zlen_nonneg s). inversion H; subst; cbn [app].
  - rewrite (body_tinystr _ _ _ _ (zlen s)); auto.
    destruct (zlen s =? 0) eqn:E.
    + destruct s; [reflexivity|]. rewrite zlen_cons in E. pose proof (zlen_nonneg s). lia.
    + unfold pstr, pbind. now rewrite next_app.
  - rewrite body_str8. unfold pbind. rewrite (read_size_app 1 (zlen s)); auto; try (cbn in *; lia).
    unfold pstr, pbind. now rewrite next_app.
  - rewrite body_str16. unfold pbind. rewrite (read_size_app 2 (zlen s)); auto; try (cbn in *; lia).
    unfold pstr, pbind. now rewrite next_app.
  - injection H1 as <-. rewrite body_str32. unfold pbind.
    rewrite (read_size_app 4 (zlen s)); auto; try (cbn in *; lia).
    unfold pstr, pbind. now rewrite next_app.
Qed.

Lemma hdr_list v tz dec n h b :
  0 <= n -> list_header signed_limits n h -> dec_body v tz dec (h ++ b) = dec_slice dec n b.
Proof.
  intros Hn H. inversion H; subst; cbn [app].
  - now apply body_tinyslice.
  - rewrite body_sl8. unfold pbind. rewrite (read_size_app 1 n); auto; cbn in *; lia.
  - rewrite body_sl16. unfold pbind. rewrite (read_size_app 2 n); auto; cbn in *; lia.
  - injection H0 as <-. rewrite body_sl32. unfold pbind. rewrite (read_size_app 4 n); auto; cbn in *; lia.
Qed.

Lemma hdr_map v tz dec n h b :
  0 <= n -> map_header signed_limits n h -> dec_body v tz dec (h ++ b) = dec_map dec n b.
Proof.
  intros Hn H. inversion H; subst; cbn [app].
  - now apply body_tinymap.
  - rewrite body_map8. unfold pbind. rewrite (read_size_app 1 n); auto; cbn in *; lia.
  - rewrite body_map16. unfold pbind. rewrite (read_size_app 2 n); auto; cbn in *; lia.
  - injection H0 as <-. rewrite body_map32. unfold pbind. rewrite (read_size_app 4 n); auto; cbn in *; lia.
Qed.

Lemma hdr_struct L v tz dec n h b :
  0 <= n -> struct_header L n h -> dec_body v tz dec (h ++ b) = dec_struct v tz dec b.
Proof.
  intros Hn H. inversion H; subst; cbn [app].
  - eapply body_tinystruct; eassumption.
  - rewrite body_st8. unfold pbind, read_size, read_int, pbind.
    rewrite read_be_app by apply H1. reflexivity.
  - rewrite body_st16. unfold pbind, read_size, read_int, pbind.
    rewrite read_be_app by apply H1. reflexivity.
  - discriminate.
Qed.

(** ** Structures *)

(** A sequence of values is decoded one after the other. *)
Inductive reads (dec : parser gval) : list gval -> bytes -> bytes -> Prop :=
| rd_nil b : reads dec [] b b
| rd_cons g gs b b1 b2 : dec b = Ok (g, b1) -> reads dec gs b1 b2 -> reads dec (g :: gs) b b2.

Lemma slice_to_str_ok ls labels : all_some (map str_of ls) = Some labels -> slice_to_str ls = Ok labels.
Proof.
  revert labels. induction ls as [|x ls IH]; intros labels H; cbn in *.
  - congruence.
  - destruct x; cbn in H; try discriminate.
    destruct (all_some (map str_of ls)); [|discriminate]. injection H as <-.
    now rewrite (IH l).
Qed.

Lemma slice_to_int_ok ls zs : all_some (map int_of ls) = Some zs -> slice_to_int ls = Ok zs.
Proof.
  revert zs. induction ls as [|x ls IH]; intros zs H; cbn in *.
  - congruence.
  - destruct x; cbn in H; try discriminate.
    destruct k; try discriminate.
    destruct (all_some (map int_of ls)); [|discriminate]. injection H as <-.
    now rewrite (IH l).
Qed.

Lemma slice_to_ok (f : gval -> option gval) (t : gval -> bool) ls gs :
  (forall x y, f x = Some y -> t x = true /\ y = x) ->
  all_some (map f ls) = Some gs -> slice_to t ls = Ok gs.
Proof.
  intros Hf H. assert (forallb t ls = true /\ gs = ls) as [H1 H2].
  { revert gs H. induction ls as [|x ls IH]; intros gs H; cbn in *.
    - split; congruence.
    - destruct (f x) eqn:E; [|discriminate]. apply Hf in E. destruct E as [E1 E2].
      destruct (all_some (map f ls)); [|discriminate]. injection H as <-.
      destruct (IH l eq_refl). rewrite E1. split; [assumption|congruence]. }
  unfold slice_to. rewrite H1. congruence.
Qed.

Lemma node_of_spec x y : node_of x = Some y -> is_node x = true /\ y = x.
Proof. destruct x; cbn; intros; try discriminate. split; congruence. Qed.
Lemma urel_of_spec x y : urel_of x = Some y -> is_urel x = true /\ y = x.
Proof. destruct x; cbn; intros; try discriminate. split; congruence. Qed.

Lemma time_roundtrip_dec s n off :
  0 <= n < 1000000000 -> -2147483648 <= off < 2147483648 ->
  time_unix s n = (s, n) /\ time_add s n (neg_offset_dur off) = (s - off, n).
Proof.
  intros Hn Ho. split.
  - unfold time_unix. destruct ((n <? 0) || (n >=? 1000000000)) eqn:E; [lia|reflexivity].
  - unfold neg_offset_dur, int64.
    rewrite (to_signed_small 8 (- off)) by (change (256 ^ Z.of_nat 8 / 2) with 9223372036854775808; lia).
    rewrite to_signed_small by (change (256 ^ Z.of_nat 8 / 2) with 9223372036854775808; lia).
    unfold time_add. rewrite Z.quot_mul, Z.rem_mul by lia.
    destruct (n + 0 >=? 1000000000) eqn:E1; [lia|].
    destruct (n + 0 <? 0) eqn:E2; [lia|]. f_equal; lia.
Qed.

Ltac rd :=
  repeat match goal with
         | R : reads _ (_ :: _) _ _ |- _ => inversion R; subst; clear R
         | R : reads _ [] _ _ |- _ => inversion R; subst; clear R
         end;
  unfold pbind;
  repeat (match goal with E : ?dec ?b = Ok _ |- context [?dec ?b] => rewrite E end;
          cbn [must_int64 as_slice as_map as_str as_int64 as_float]; unfold pret).

Ltac step_sig Hm k :=
  match type of Hm with
  | (if ?s =? k then _ else _) = _ => destruct (Z.eqb_spec s k) as [->|?]
  end.

Lemma struct_ok v tz dec sb sig gs g b rest :
  Z.of_N (Byte.to_N sb) = sig -> struct_meaning v sig gs = Some g -> reads dec gs b rest ->
  dec_struct v tz dec (sb :: b) = Ok (g, rest).
Proof.
  intros Hs Hm R. unfold dec_struct. change (Z.of_N (Byte.to_N sb)) with (bz sb) in Hs. rewrite Hs.
  unfold struct_meaning in Hm.
  unfold SigNode, SigRel, SigPath, SigURel, SigRecord, SigFailure, SigIgnored, SigSuccess,
    SigDiscardAll, SigPullAll, SigReset, SigPoint2D, SigPoint3D, SigDate, SigTime, SigLocalTime,
    SigLocalDateTime, SigDateTimeOffset, SigDateTimeZoneId, SigDuration.
  clear Hs.
  step_sig Hm 78; [cbv beta iota delta [Z.eqb Pos.eqb]|].
  { repeat match type of Hm with match ?x with _ => _ end = _ => destruct x eqn:?; try discriminate end.
    injection Hm as <-. unfold dec_node. rd.
    match goal with E : all_some _ = Some _ |- _ => apply slice_to_str_ok in E; rewrite E end.
    cbn [lift]. rd. reflexivity. }
  step_sig Hm 82; [cbv beta iota delta [Z.eqb Pos.eqb]|].
  { repeat match type of Hm with match ?x with _ => _ end = _ => destruct x eqn:?; try discriminate end.
    injection Hm as <-. unfold dec_rel. rd. reflexivity. }
  step_sig Hm 114; [cbv beta iota delta [Z.eqb Pos.eqb]|].
  { repeat match type of Hm with match ?x with _ => _ end = _ => destruct x eqn:?; try discriminate end.
    injection Hm as <-. unfold dec_urel. rd. reflexivity. }
  step_sig Hm 80; [cbv beta iota delta [Z.eqb Pos.eqb]|].
  { repeat match type of Hm with match ?x with _ => _ end = _ => destruct x eqn:?; try discriminate end.
    injection Hm as <-. unfold dec_path. rd.
    rewrite (slice_to_ok node_of is_node _ _ node_of_spec ltac:(eassumption)). cbn [lift]. rd.
    rewrite (slice_to_ok urel_of is_urel _ _ urel_of_spec ltac:(eassumption)). cbn [lift]. rd.
    match goal with E : all_some (map int_of _) = Some _ |- _ => apply slice_to_int_ok in E; rewrite E end.
    reflexivity. }
  step_sig Hm 112; [cbv beta iota delta [Z.eqb Pos.eqb]|].
  { repeat match type of Hm with match ?x with _ => _ end = _ => destruct x eqn:?; try discriminate end.
    injection Hm as <-. unfold dec_success. rd. reflexivity. }
  step_sig Hm 127; [cbv beta iota delta [Z.eqb Pos.eqb]|].
  { repeat match type of Hm with match ?x with _ => _ end = _ => destruct x eqn:?; try discriminate end.
    injection Hm as <-. unfold dec_failure. rd. reflexivity. }
  step_sig Hm 113; [cbv beta iota delta [Z.eqb Pos.eqb]|].
  { repeat match type of Hm with match ?x with _ => _ end = _ => destruct x eqn:?; try discriminate end.
    injection Hm as <-. unfold dec_record. rd. reflexivity. }
  step_sig Hm 126; [cbv beta iota delta [Z.eqb Pos.eqb]|].
  { destruct gs; [|discriminate]. injection Hm as <-. rd. reflexivity. }
  step_sig Hm 47; [cbv beta iota delta [Z.eqb Pos.eqb]|].
  { destruct gs; [|discriminate]. injection Hm as <-. rd. reflexivity. }
  step_sig Hm 63; [cbv beta iota delta [Z.eqb Pos.eqb]|].
  { destruct gs; [|discriminate]. injection Hm as <-. rd. reflexivity. }
  step_sig Hm 15; [cbv beta iota delta [Z.eqb Pos.eqb]|].
  { destruct gs; [|discriminate]. injection Hm as <-. rd. reflexivity. }
  destruct v; [discriminate|].
  step_sig Hm 88; [cbv beta iota delta [Z.eqb Pos.eqb]|].
  { repeat match type of Hm with match ?x with _ => _ end = _ => destruct x eqn:?; try discriminate end.
    injection Hm as <-. unfold dec_point2d. rd. reflexivity. }
  step_sig Hm 89; [cbv beta iota delta [Z.eqb Pos.eqb]|].
  { repeat match type of Hm with match ?x with _ => _ end = _ => destruct x eqn:?; try discriminate end.
    injection Hm as <-. unfold dec_point3d. rd. reflexivity. }
  step_sig Hm 68; [cbv beta iota delta [Z.eqb Pos.eqb]|].
  { repeat match type of Hm with match ?x with _ => _ end = _ => destruct x eqn:?; try discriminate end.
    injection Hm as <-. unfold dec_date. rd. reflexivity. }
  step_sig Hm 84; [cbv beta iota delta [Z.eqb Pos.eqb]|].
  { repeat match type of Hm with match ?x with _ => _ end = _ => destruct x eqn:?; try discriminate end.
    injection Hm as <-. unfold dec_time. rd. reflexivity. }
  step_sig Hm 116; [cbv beta iota delta [Z.eqb Pos.eqb]|].
  { repeat match type of Hm with match ?x with _ => _ end = _ => destruct x eqn:?; try discriminate end.
    injection Hm as <-. unfold dec_localtime. rd. reflexivity. }
  step_sig Hm 100; [cbv beta iota delta [Z.eqb Pos.eqb]|].
  { repeat match type of Hm with match ?x with _ => _ end = _ => destruct x eqn:?; try discriminate end.
    injection Hm as <-. unfold dec_localdatetime. rd. reflexivity. }
  step_sig Hm 70; [cbv beta iota delta [Z.eqb Pos.eqb]|discriminate].
  repeat match type of Hm with match ?x with _ => _ end = _ => destruct x eqn:?; try discriminate end.
  injection Hm as <-. unfold dec_datetime_offset. rd.
  match goal with |- context [time_unix ?s ?n] =>
    match goal with |- context [neg_offset_dur ?o] =>
      destruct (time_roundtrip_dec s n o) as [Hu Ha]; [lia|lia|] end end.
  rewrite Hu, Ha. reflexivity.
Qed.

(** ** All items *)

Lemma header_nonempty L t m8 m16 m32 n h : header L t m8 m16 m32 n h -> h <> [].
Proof. intros H. inversion H; discriminate. Qed.

Lemma packs_nonempty L p bs : packs L p bs -> bs <> [].
Proof.
  intros H. inversion H; subst; try discriminate; intros E; apply app_eq_nil in E; destruct E as [-> E];
    try (now eapply header_nonempty; eauto).
Qed.

Lemma packs_len L p bs : packs L p bs -> (1 <= length bs)%nat.
Proof. intros H. apply packs_nonempty in H. destruct bs; [easy|cbn; lia]. Qed.

Lemma packs_seq_len L l bs : packs_seq L l bs -> (length l <= length bs)%nat.
Proof.
  revert bs. induction l; intros bs H; inversion H as [|? ? b1 b2 H1 H2]; subst; cbn [length]; [lia|].
  rewrite app_length. apply packs_len in H1. apply IHl in H2. lia.
Qed.

Lemma packs_entries_len L m bs : packs_entries L m bs -> (length m <= length bs)%nat.
Proof.
  revert bs. induction m; intros bs H; inversion H as [|? ? ? kb b1 b2 H1 H2 H3]; subst; cbn [length]; [lia|].
  rewrite !app_length. apply packs_len in H2. apply IHm in H3. lia.
Qed.

Definition decodes (v : ver) (tz : zones) (p : pv) : Prop :=
  forall bs g rest fuel, packs signed_limits p bs -> meaning v p = Some g ->
    (length bs < fuel)%nat -> decode_fuel v tz fuel (bs ++ rest) = Ok (g, rest).

Lemma items_ok v tz l : Forall (decodes v tz) l ->
  forall bs gs rest fuel k, packs_seq signed_limits l bs -> all_some (map (meaning v) l) = Some gs ->
    (length bs < fuel)%nat -> (length l <= k)%nat ->
    dec_items (decode_fuel v tz fuel) k (zlen l) (bs ++ rest) = Ok (gs, rest).
Proof.
  induction 1 as [|p l Hp _ IH]; intros bs gs rest fuel k Hb Hm Hf Hk.
  - inversion Hb; subst. cbn in Hm. injection Hm as <-. destruct k; reflexivity.
  - inversion Hb as [|? ? b1 b2 H1 H2]; subst. cbn [map all_some] in Hm.
    destruct (meaning v p) eqn:Ep; [|discriminate].
    destruct (all_some (map (meaning v) l)) eqn:El; [|discriminate]. injection Hm as <-.
    rewrite app_length in Hf. cbn [length] in Hk. destruct k; [lia|].
    cbn [dec_items]. rewrite zlen_cons. pose proof (zlen_nonneg l).
    destruct (1 + zlen l <=? 0) eqn:E; [lia|].
    unfold pbind. rewrite <- app_assoc. rewrite (Hp b1 g); auto; [|lia].
    replace (1 + zlen l - 1) with (zlen l) by lia.
    rewrite (IH b2 l0); auto; lia.
Qed.

Lemma reads_ok v tz l : Forall (decodes v tz) l ->
  forall bs gs rest fuel, packs_seq signed_limits l bs -> all_some (map (meaning v) l) = Some gs ->
    (length bs < fuel)%nat -> reads (decode_fuel v tz fuel) gs (bs ++ rest) rest.
Proof.
  induction 1 as [|p l Hp _ IH]; intros bs gs rest fuel Hb Hm Hf.
  - inversion Hb; subst. cbn in Hm. injection Hm as <-. constructor.
  - inversion Hb as [|? ? b1 b2 H1 H2]; subst. cbn [map all_some] in Hm.
    destruct (meaning v p) eqn:Ep; [|discriminate].
    destruct (all_some (map (meaning v) l)) eqn:El; [|discriminate]. injection Hm as <-.
    rewrite app_length in Hf. rewrite <- app_assoc. econstructor.
    + apply Hp; eauto. lia.
    + apply IH; auto. lia.
Qed.

Lemma map_set_fresh {A} (m : list (bytes * A)) k x :
  ~ In k (map fst m) -> map_set m k x = m ++ [(k, x)].
Proof.
  induction m as [|[k' x'] m IH]; intros H; [reflexivity|]. cbn in *.
  destruct (bytes_eqb k k') eqn:E.
  - apply bytes_eqb_eq in E. subst. exfalso. apply H. now left.
  - f_equal. apply IH. intros Hin. apply H. now right.
Qed.

Lemma nodupb_NoDup l : nodupb l = true <-> NoDup l.
Proof.
  induction l as [|k l IH]; cbn.
  - split; constructor.
  - rewrite andb_true_iff, negb_true_iff, IH. split.
    + intros [H1 H2]. constructor; [|assumption]. intros Hin.
      enough (existsb (bytes_eqb k) l = true) by congruence.
      apply existsb_exists. exists k. split; [assumption|apply bytes_eqb_refl].
    + intros H. inversion H; subst. split; [|assumption].
      destruct (existsb (bytes_eqb k) l) eqn:E; [|reflexivity].
      apply existsb_exists in E. destruct E as [y [Hy E]]. apply bytes_eqb_eq in E. now subst.
Qed.

Lemma str_decodes v tz s bs rest fuel : packs signed_limits (PStr s) bs -> (0 < fuel)%nat ->
  decode_fuel v tz fuel (bs ++ rest) = Ok (GStr s, rest).
Proof.
  intros H Hf. inversion H; subst. destruct fuel; [lia|]. cbn [decode_fuel].
  rewrite <- app_assoc. now apply hdr_str.
Qed.

Lemma entries_ok v tz m : Forall (fun kv => decodes v tz (snd kv)) m ->
  forall bs gs rest fuel k acc, packs_entries signed_limits m bs ->
    all_some (map (fun kv => meaning v (snd kv)) m) = Some gs ->
    (length bs < fuel)%nat -> (length m <= k)%nat -> NoDup (map fst acc ++ map fst m) ->
    dec_entries (decode_fuel v tz fuel) k (zlen m) acc (bs ++ rest)
    = Ok (acc ++ combine (map fst m) gs, rest).
Proof.
  induction 1 as [|[key p] m Hp _ IH]; intros bs gs rest fuel k acc Hb Hm Hf Hk Hnd.
  - inversion Hb; subst. cbn in Hm. injection Hm as <-. destruct k; cbn; now rewrite app_nil_r.
  - inversion Hb as [|? ? ? kb b1 b2 H0 H1 H2]; subst. cbn [map all_some snd] in Hm.
    destruct (meaning v p) eqn:Ep; [|discriminate].
    destruct (all_some (map (fun kv => meaning v (snd kv)) m)) eqn:El; [|discriminate].
    injection Hm as <-.
    rewrite !app_length in Hf. cbn [length] in Hk. destruct k; [lia|].
    cbn [dec_entries]. rewrite zlen_cons. pose proof (zlen_nonneg m).
    destruct (1 + zlen m <=? 0) eqn:E; [lia|].
    unfold pbind. rewrite <- !app_assoc. rewrite (str_decodes _ _ key); auto; [|lia].
    rewrite (Hp b1 g); auto; [|lia].
    replace (1 + zlen m - 1) with (zlen m) by lia.
    cbn [map fst] in Hnd.
    assert (Hfr : ~ In key (map fst acc)).
    { intros Hin. apply NoDup_remove_2 in Hnd. apply Hnd. apply in_or_app. now left. }
    rewrite map_set_fresh by assumption.
    rewrite (IH b2 l); auto; try lia.
    + rewrite <- app_assoc. reflexivity.
    + rewrite map_app. cbn [map fst]. rewrite <- app_assoc. exact Hnd.
Qed.

(** Decoding any valid representation (with sizes below the signed limits) of an item yields the
    Go value it means and leaves exactly the bytes that follow it. *)
Theorem decode_packs v tz p : decodes v tz p.
Proof.
  induction p as [| b | z | b | s | l IH | m IH | sig fs IH | t] using pv_ind';
    intros bs g rest fuel Hb Hm Hf; (destruct fuel; [lia|]); cbn [decode_fuel].
  - inversion Hb; subst. cbn in Hm. injection Hm as <-. reflexivity.
  - cbn in Hm. injection Hm as <-. inversion Hb; subst; reflexivity.
  - cbn in Hm. injection Hm as <-. inversion Hb; subst; cbn [app].
    + now apply body_tinyint.
    + rewrite body_int8. unfold pbind. rewrite (read_int_app 1 z); auto.
    + rewrite body_int16. unfold pbind. rewrite (read_int_app 2 z); auto.
    + rewrite body_int32. unfold pbind. rewrite (read_int_app 4 z); auto; lia.
    + rewrite body_int64. unfold pbind. rewrite (read_int_app 8 z); auto; lia.
  - cbn in Hm. injection Hm as <-. inversion Hb as [| | | | | | | |? s [H1 H2]| | | |]; subst; cbn [app].
    rewrite body_float. unfold pbind. rewrite read_be_app; auto.
  - cbn in Hm. injection Hm as <-. inversion Hb; subst. rewrite <- app_assoc. now apply hdr_str.
  - cbn [meaning] in Hm. destruct (all_some (map (meaning v) l)) eqn:El; [|discriminate].
    injection Hm as <-. inversion Hb as [| | | | | | | | | |? h bs' Hh Hs| |]; subst.
    rewrite app_length in Hf.
    rewrite <- app_assoc. rewrite (hdr_list _ _ _ (zlen l)); [|apply zlen_nonneg|assumption].
    unfold dec_slice. pose proof (zlen_nonneg l). destruct (zlen l <? 0) eqn:E; [lia|].
    unfold pbind. pose proof (packs_seq_len _ _ _ Hs).
    apply header_nonempty in Hh. assert (1 <= length h)%nat by (destruct h; [easy|cbn; lia]).
    rewrite (items_ok v tz l IH bs' l0); auto; [lia|]. rewrite app_length; lia.
  - cbn [meaning] in Hm. destruct (nodupb (map fst m)) eqn:Hnd; [|discriminate].
    destruct (all_some (map (fun kv => meaning v (snd kv)) m)) eqn:El; [|discriminate].
    injection Hm as <-. inversion Hb as [| | | | | | | | | | |? h bs' Hh Hs|]; subst.
    rewrite app_length in Hf.
    rewrite <- app_assoc. rewrite (hdr_map _ _ _ (zlen m)); [|apply zlen_nonneg|assumption].
    unfold dec_map, pbind. pose proof (packs_entries_len _ _ _ Hs).
    apply header_nonempty in Hh. assert (1 <= length h)%nat by (destruct h; [easy|cbn; lia]).
    apply nodupb_NoDup in Hnd.
    rewrite (entries_ok v tz m IH bs' l); auto; [lia|]. rewrite app_length; lia.
  - cbn [meaning] in Hm. destruct (all_some (map (meaning v) fs)) eqn:El; [|discriminate].
    inversion Hb as [| | | | | | | | | | | |? ? h sb bs' Hh Hsig Hs]; subst.
    rewrite app_length in Hf. cbn [length] in Hf.
    rewrite <- app_assoc. rewrite (hdr_struct signed_limits _ _ _ (zlen fs));
      [|apply zlen_nonneg|assumption].
    cbn [app]. eapply struct_ok; [reflexivity|exact Hm|].
    apply header_nonempty in Hh. assert (1 <= length h)%nat by (destruct h; [easy|cbn; lia]).
    eapply reads_ok; eauto. lia.
  - discriminate.
Qed.

Corollary decode_packs_top v tz p bs g rest :
  packs signed_limits p bs -> meaning v p = Some g -> decode v tz (bs ++ rest) = Ok (g, rest).
Proof. intros. apply decode_packs with (p := p); auto. rewrite app_length. lia. Qed.
