(** The encoder produces valid representations (proofs). *)
From Coq Require Import ZArith List Bool Lia ZifyBool.
From Verif Require Import Bytes BytesFacts GoVal GoErr Encoder SpecPack.
Import ListNotations.
Open Scope Z_scope.
Ltac Zify.zify_post_hook ::= Z.div_mod_to_equations.

(** Induction over items with the hypothesis for all elements. *)
Section PvInd.
  Variable P : pv -> Prop.
  Hypothesis Hnull : P PNull.
  Hypothesis Hbool : forall b, P (PBool b).
  Hypothesis Hint : forall z, P (PInt z).
  Hypothesis Hfloat : forall b, P (PFloat b).
  Hypothesis Hstr : forall s, P (PStr s).
  Hypothesis Hlist : forall l, Forall P l -> P (PList l).
  Hypothesis Hmap : forall m, Forall (fun kv => P (snd kv)) m -> P (PMap m).
  Hypothesis Hstruct : forall sig fs, Forall P fs -> P (PStruct sig fs).
  Hypothesis Herr : forall t, P (PErr t).
  Fixpoint pv_ind' (p : pv) : P p :=
    match p with
    | PNull => Hnull
    | PBool b => Hbool b
    | PInt z => Hint z
    | PFloat b => Hfloat b
    | PStr s => Hstr s
    | PList l => Hlist l ((fix go l : Forall P l :=
        match l with [] => Forall_nil _ | x :: l' => Forall_cons x (pv_ind' x) (go l') end) l)
    | PMap m => Hmap m ((fix go m : Forall (fun kv => P (snd kv)) m :=
        match m with [] => Forall_nil _ | x :: m' => Forall_cons x (pv_ind' (snd x)) (go m') end) m)
    | PStruct sig fs => Hstruct sig fs ((fix go l : Forall P l :=
        match l with [] => Forall_nil _ | x :: l' => Forall_cons x (pv_ind' x) (go l') end) fs)
    | PErr t => Herr t
    end.
End PvInd.

(** Named versions of the element loops of [enc]. *)
Fixpoint enc_all (l : list pv) : wseq :=
  match l with [] => w_ok [] | x :: l' => w_then (enc x) (enc_all l') end.
Fixpoint enc_fields (l : list pv) : wseq :=
  match l with [] => w_ok [] | x :: l' => w_then (w_wrap (enc x)) (enc_fields l') end.
Fixpoint enc_entries (l : list (bytes * pv)) : wseq :=
  match l with
  | [] => w_ok []
  | (k, x) :: l' => w_then (enc_str k) (w_then (enc x) (enc_entries l'))
  end.

Lemma enc_list_eq l : enc (PList l) = w_then (slice_hdr (zlen l)) (enc_all l).
Proof. reflexivity. Qed.
Lemma enc_map_eq m : enc (PMap m) = w_then (map_hdr (zlen m)) (enc_entries m).
Proof. reflexivity. Qed.
Lemma enc_struct_eq sig fs :
  enc (PStruct sig fs) = w_then (struct_hdr (zlen fs)) (w_then (w_ok [[zb sig]]) (enc_fields fs)).
Proof. reflexivity. Qed.

Lemma unbe_be_value l : unbe l = be_value l.
Proof.
  assert (H : forall l a, fold_left (fun a b => a * 256 + bz b) l a
                          = a * 256 ^ Z.of_nat (length l) + be_value l).
  { clear. induction l as [|b l IH]; intros a.
    - cbn. lia.
    - cbn [fold_left be_value length]. rewrite IH.
      replace (Z.of_nat (S (length l))) with (1 + Z.of_nat (length l)) by lia.
      rewrite Z.pow_add_r by lia. change (256 ^ 1) with 256. unfold bz. lia. }
  unfold unbe. rewrite H. lia.
Qed.

Lemma be_unsigned n z : 0 <= z < 256 ^ Z.of_nat n -> unsigned_be n z (be n z).
Proof.
  intros H. split; [apply be_length|]. rewrite <- unbe_be_value, unbe_be.
  apply Z.mod_small. lia.
Qed.

Lemma pow256 n : 256 ^ Z.of_nat n = 2 ^ (8 * Z.of_nat n).
Proof. rewrite Z.pow_mul_r by lia. reflexivity. Qed.

Lemma be_signed n z :
  (0 < n)%nat -> - 2 ^ (8 * Z.of_nat n - 1) <= z < 2 ^ (8 * Z.of_nat n - 1) -> signed_be n z (be n z).
Proof.
  intros Hn H. split; [apply be_length|]. split; [exact H|].
  rewrite <- unbe_be_value, unbe_be, pow256.
  replace (8 * Z.of_nat n) with (1 + (8 * Z.of_nat n - 1)) by lia.
  rewrite (Z.pow_add_r 2 1) by lia. change (2 ^ 1) with 2.
  set (m := 2 ^ (8 * Z.of_nat n - 1)) in *.
  destruct (z <? 0) eqn:E.
  - symmetry. apply (Z.mod_unique z (2 * m) (-1)); lia.
  - apply Z.mod_small. lia.
Qed.

(** ** Success and concatenation of write sequences *)

Definition wbytes (w : wseq) : bytes := concat (fst w).

Lemma w_then_None a b : snd (w_then a b) = None <-> snd a = None /\ snd b = None.
Proof. unfold w_then. destruct a as [la [ea|]], b as [lb eb]; cbn; intuition congruence. Qed.

Lemma w_then_bytes a b : snd a = None -> wbytes (w_then a b) = wbytes a ++ wbytes b.
Proof.
  unfold w_then, wbytes. destruct a as [la [ea|]], b as [lb eb]; cbn; intros H; try easy.
  apply concat_app.
Qed.

Lemma w_wrap_None a : snd (w_wrap a) = None <-> snd a = None.
Proof. unfold w_wrap. destruct a as [la [ea|]]; cbn; intuition congruence. Qed.

Lemma w_wrap_bytes a : wbytes (w_wrap a) = wbytes a.
Proof. unfold w_wrap. destruct a as [la [ea|]]; reflexivity. Qed.

(** ** Headers *)

Lemma lor_nibble t n : 0 <= n <= 15 -> t = 128 \/ t = 144 \/ t = 160 \/ t = 176 -> Z.lor t n = t + n.
Proof.
  intros H Ht.
  assert (Hn : n = 0 \/ n = 1 \/ n = 2 \/ n = 3 \/ n = 4 \/ n = 5 \/ n = 6 \/ n = 7 \/ n = 8
               \/ n = 9 \/ n = 10 \/ n = 11 \/ n = 12 \/ n = 13 \/ n = 14 \/ n = 15) by lia.
  destruct Ht as [->|[->|[->| ->]]];
  repeat (destruct Hn as [->|Hn]; [reflexivity|]); subst; reflexivity.
Qed.

Lemma to_N_zb z : 0 <= z < 256 -> Z.of_N (Byte.to_N (zb z)) = z.
Proof. intros. change (bz (zb z) = z). rewrite bz_zb. apply Z.mod_small; lia. Qed.

Ltac split_ifs :=
  repeat match goal with
         | |- context [if ?c then _ else _] => destruct c eqn:?
         end.

Lemma header_size_ok L tiny m8 m16 m32 n :
  0 <= n -> size_ok L n = true -> tiny = 128 \/ tiny = 144 \/ tiny = 160 \/ tiny = 176 ->
  lim8 L <= 256 -> lim16 L <= 65536 -> lim32 L <= 4294967296 ->
  (n <= 65535 \/ exists m, m32 = Some m) ->
  header L tiny m8 m16 m32 n
    (if n <=? 15 then [zb (tiny + n)]
     else if n <=? 255 then m8 :: be 1 n
     else if n <=? 65535 then m16 :: be 2 n
     else match m32 with Some m => m :: be 4 n | None => [] end).
Proof.
  intros Hn Hs Ht H8 H16 H32 Hm. unfold size_ok in Hs. split_ifs.
  - apply hd_tiny; [lia|]. apply to_N_zb. lia.
  - apply hd_8; [lia|]. apply be_unsigned. change (256 ^ Z.of_nat 1) with 256. lia.
  - apply hd_16; [lia|]. apply be_unsigned. change (256 ^ Z.of_nat 2) with 65536. lia.
  - destruct Hm as [Hm|[m ->]]; [lia|]. eapply hd_32; [reflexivity|lia|].
    apply be_unsigned. change (256 ^ Z.of_nat 4) with 4294967296. lia.
Qed.

Lemma int8_be n : be 1 (int8 n) = be 1 n. Proof. apply be_to_signed. Qed.
Lemma int16_be n : be 2 (int16 n) = be 2 n. Proof. apply be_to_signed. Qed.
Lemma int32_be n : be 4 (int32 n) = be 4 n. Proof. apply be_to_signed. Qed.

(** The header bytes in closed form. *)
Definition hdr_bytes (tiny : Z) (m8 m16 : byte) (m32 : option byte) (n : Z) : bytes :=
  if n <=? 15 then [zb (tiny + n)]
  else if n <=? 255 then m8 :: be 1 n
  else if n <=? 65535 then m16 :: be 2 n
  else match m32 with Some m => m :: be 4 n | None => [] end.

Ltac hdr_tac hdr :=
  intros Hn; unfold hdr, hdr_bytes, MaxUint8, MaxUint16, MaxUint32;
  repeat rewrite int8_be, int16_be, int32_be;
  unfold TinyStringMarker, TinySliceMarker, TinyMapMarker, TinyStructMarker.

Lemma str_hdr_ok n : 0 <= n <= 4294967295 ->
  snd (str_hdr n) = None /\ wbytes (str_hdr n) = hdr_bytes 128 xd0 xd1 (Some xd2) n.
Proof.
  intros Hn. unfold str_hdr, hdr_bytes, MaxUint8, MaxUint16, MaxUint32.
  rewrite int8_be, int16_be, int32_be.
  split_ifs; try lia; split; try reflexivity.
  unfold TinyStringMarker. rewrite lor_nibble by lia. reflexivity.
Qed.

Lemma slice_hdr_ok n : 0 <= n <= 4294967295 ->
  snd (slice_hdr n) = None /\ wbytes (slice_hdr n) = hdr_bytes 144 xd4 xd5 (Some xd6) n.
Proof.
  intros Hn. unfold slice_hdr, hdr_bytes, MaxUint8, MaxUint16, MaxUint32.
  rewrite int8_be, int16_be, int32_be.
  split_ifs; try lia; split; try reflexivity.
  unfold TinySliceMarker. rewrite lor_nibble by lia. reflexivity.
Qed.

Lemma map_hdr_ok n : 0 <= n <= 4294967295 ->
  snd (map_hdr n) = None /\ wbytes (map_hdr n) = hdr_bytes 160 xd8 xd9 (Some xda) n.
Proof.
  intros Hn. unfold map_hdr, hdr_bytes, MaxUint8, MaxUint16, MaxUint32.
  rewrite int8_be, int16_be, int32_be.
  split_ifs; try lia; split; try reflexivity.
  unfold TinyMapMarker. rewrite lor_nibble by lia. reflexivity.
Qed.

Lemma struct_hdr_ok n : 0 <= n <= 65535 ->
  snd (struct_hdr n) = None /\ wbytes (struct_hdr n) = hdr_bytes 176 xdc xdd None n.
Proof.
  intros Hn. unfold struct_hdr, hdr_bytes, MaxUint8, MaxUint16, MaxUint32.
  rewrite int8_be, int16_be.
  split_ifs; try lia; split; try reflexivity.
  unfold TinyStructMarker. rewrite lor_nibble by lia. reflexivity.
Qed.

Lemma str_hdr_inv n : 0 <= n -> snd (str_hdr n) = None -> n <= 4294967295.
Proof. unfold str_hdr, MaxUint8, MaxUint16, MaxUint32. split_ifs; cbn; intros; try discriminate; lia. Qed.
Lemma slice_hdr_inv n : 0 <= n -> snd (slice_hdr n) = None -> n <= 4294967295.
Proof. unfold slice_hdr, MaxUint8, MaxUint16, MaxUint32. split_ifs; cbn; intros; try discriminate; lia. Qed.
Lemma map_hdr_inv n : 0 <= n -> snd (map_hdr n) = None -> n <= 4294967295.
Proof. unfold map_hdr, MaxUint8, MaxUint16, MaxUint32. split_ifs; cbn; intros; try discriminate; lia. Qed.
Lemma struct_hdr_inv n : 0 <= n -> snd (struct_hdr n) = None -> n <= 65535.
Proof. unfold struct_hdr, MaxUint8, MaxUint16, MaxUint32. split_ifs; cbn; intros; try discriminate; lia. Qed.

(** ** Integers *)

Lemma enc_int_ok z : MinInt64 <= z <= MaxInt64 -> snd (enc_int z) = None.
Proof.
  unfold enc_int, MinInt64, MaxInt64, MinInt32, MaxInt32, MinInt16, MaxInt16, MinInt8, MaxInt8.
  intros H. split_ifs; try reflexivity. lia.
Qed.

Lemma enc_int_inv z : snd (enc_int z) = None -> MinInt64 <= z <= MaxInt64.
Proof.
  unfold enc_int, MinInt64, MaxInt64, MinInt32, MaxInt32, MinInt16, MaxInt16, MinInt8, MaxInt8.
  split_ifs; cbn; intros; try discriminate; lia.
Qed.

Lemma enc_int_packs L z : MinInt64 <= z <= MaxInt64 -> packs L (PInt z) (wbytes (enc_int z)).
Proof.
  intros H.
  unfold enc_int, MinInt64, MaxInt64, MinInt32, MaxInt32, MinInt16, MaxInt16, MinInt8, MaxInt8 in *.
  rewrite int8_be, int16_be, int32_be.
  split_ifs; unfold wbytes, w_ok; cbn [fst concat]; rewrite ?app_nil_r; try lia;
    try (apply pk_int64, be_signed; [lia|]; change (2 ^ (8 * Z.of_nat 8 - 1)) with 9223372036854775808; lia);
    try (apply pk_int32, be_signed; [lia|]; change (2 ^ (8 * Z.of_nat 4 - 1)) with 2147483648; lia);
    try (apply pk_int16, be_signed; [lia|]; change (2 ^ (8 * Z.of_nat 2 - 1)) with 32768; lia);
    try (apply pk_int8, be_signed; [lia|]; change (2 ^ (8 * Z.of_nat 1 - 1)) with 128; lia).
  apply pk_int_tiny; [lia|].
  apply (be_signed 1 z); [lia|]. change (2 ^ (8 * Z.of_nat 1 - 1)) with 128; lia.
Qed.

(** ** All items *)

Definition limits_ok (L : limits) := lim8 L <= 256 /\ lim16 L <= 65536 /\ lim32 L <= 4294967296.

Lemma size_ok_bound L n : limits_ok L -> size_ok L n = true -> n <= 4294967295.
Proof. unfold limits_ok, size_ok. split_ifs; lia. Qed.

Lemma enc_str_packs L s :
  limits_ok L -> size_ok L (zlen s) = true ->
  snd (enc_str s) = None /\ packs L (PStr s) (wbytes (enc_str s)).
Proof.
  intros HL H. pose proof (size_ok_bound _ _ HL H). pose proof (zlen_nonneg s).
  destruct (str_hdr_ok (zlen s)) as [Hh1 Hh2]; [lia|].
  unfold enc_str. split.
  - apply w_then_None. now split.
  - rewrite w_then_bytes by assumption. rewrite Hh2. unfold wbytes at 1, w_ok. cbn [fst concat].
    rewrite app_nil_r. apply pk_string. destruct HL as [? [? ?]].
    apply header_size_ok; auto. right. eauto.
Qed.

Theorem enc_packs L p :
  limits_ok L -> packable L p = true ->
  snd (enc p) = None /\ packs L p (wbytes (enc p)).
Proof.
  intros HL. induction p as [| b | z | b | s | l IH | m IH | sig fs IH | t] using pv_ind'; intros H.
  - split; constructor.
  - destruct b; split; constructor.
  - cbn [packable] in H. split.
    + apply enc_int_ok. unfold MinInt64, MaxInt64. lia.
    + apply enc_int_packs. unfold MinInt64, MaxInt64. lia.
  - cbn [packable] in H. split; [reflexivity|].
    unfold enc, enc_float, wbytes, w_ok. cbn [fst concat]. rewrite app_nil_r.
    apply pk_float, be_unsigned. change (256 ^ Z.of_nat 8) with (2 ^ 64). lia.
  - now apply enc_str_packs.
  - cbn [packable] in H. apply andb_prop in H. destruct H as [Hs Ha].
    pose proof (size_ok_bound _ _ HL Hs). pose proof (zlen_nonneg l).
    destruct (slice_hdr_ok (zlen l)) as [Hh1 Hh2]; [lia|].
    assert (Hl : snd (enc_all l) = None /\ packs_seq L l (wbytes (enc_all l))).
    { clear - HL Ha IH. induction IH as [|x l Hx _ IHl]; cbn [enc_all].
      - split; constructor.
      - cbn [forallb] in Ha. apply andb_prop in Ha. destruct Ha as [Hax Hal].
        destruct (Hx Hax) as [Hx1 Hx2]. destruct (IHl Hal) as [Hl1 Hl2].
        split; [now apply w_then_None|]. rewrite w_then_bytes by assumption. now constructor. }
    destruct Hl as [Hl1 Hl2]. rewrite enc_list_eq. split; [now apply w_then_None|].
    rewrite w_then_bytes by assumption. rewrite Hh2. apply pk_list; [|assumption].
    destruct HL as [? [? ?]]. apply header_size_ok; auto. right; eauto.
  - cbn [packable] in H. apply andb_prop in H. destruct H as [Hs Ha].
    pose proof (size_ok_bound _ _ HL Hs). pose proof (zlen_nonneg m).
    destruct (map_hdr_ok (zlen m)) as [Hh1 Hh2]; [lia|].
    assert (Hl : snd (enc_entries m) = None /\ packs_entries L m (wbytes (enc_entries m))).
    { clear - HL Ha IH. induction IH as [|[k x] m Hx _ IHm]; cbn [enc_entries].
      - split; constructor.
      - cbn [forallb fst snd] in Ha. apply andb_prop in Ha. destruct Ha as [Hax Hal].
        apply andb_prop in Hax. destruct Hax as [Hk Hax]. cbn [snd] in Hx.
        destruct (enc_str_packs L k HL Hk) as [Hk1 Hk2].
        destruct (Hx Hax) as [Hx1 Hx2]. destruct (IHm Hal) as [Hl1 Hl2].
        split; [apply w_then_None; split; [assumption|now apply w_then_None]|].
        rewrite w_then_bytes by assumption. rewrite w_then_bytes by assumption. now constructor. }
    destruct Hl as [Hl1 Hl2]. rewrite enc_map_eq. split; [now apply w_then_None|].
    rewrite w_then_bytes by assumption. rewrite Hh2. apply pk_map; [|assumption].
    destruct HL as [? [? ?]]. apply header_size_ok; auto. right; eauto.
  - cbn [packable] in H. apply andb_prop in H. destruct H as [H Hfs].
    apply andb_prop in H. destruct H as [H Hs]. apply andb_prop in H. destruct H as [Hsig Hmax].
    pose proof (zlen_nonneg fs).
    destruct (struct_hdr_ok (zlen fs)) as [H4 H5]; [lia|].
    assert (Hl : snd (enc_fields fs) = None /\ packs_seq L fs (wbytes (enc_fields fs))).
    { clear - Hfs IH. induction IH as [|x l Hx _ IHl]; cbn [enc_fields].
      - split; constructor.
      - cbn [forallb] in Hfs. apply andb_prop in Hfs. destruct Hfs as [Hax Hal].
        destruct (Hx Hax) as [Hx1 Hx2]. destruct (IHl Hal) as [Hl1 Hl2].
        split; [apply w_then_None; split; [now apply w_wrap_None|assumption]|].
        rewrite w_then_bytes by now apply w_wrap_None. rewrite w_wrap_bytes. now constructor. }
    destruct Hl as [Hl1 Hl2]. rewrite enc_struct_eq. split.
    + apply w_then_None; split; [assumption|]. apply w_then_None; now split.
    + rewrite !w_then_bytes by auto. rewrite H5. cbn [wbytes w_ok fst concat app].
      apply pk_struct.
      * destruct HL as [? [? ?]]. apply header_size_ok; auto. left; lia.
      * apply to_N_zb. lia.
      * assumption.
  - discriminate.
Qed.

(** Parts of packability that do not depend on sizes: 64-bit floats and one-byte signatures. Every
    Go float64 and every structure type of the driver satisfies this. *)
Fixpoint typed_pv (p : pv) : bool :=
  match p with
  | PFloat b => (0 <=? b) && (b <? 2 ^ 64)
  | PList l => forallb typed_pv l
  | PMap m => forallb (fun kv => typed_pv (snd kv)) m
  | PStruct sig fs => (0 <=? sig) && (sig <? 256) && forallb typed_pv fs
  | _ => true
  end.

Lemma size_ok_format n : 0 <= n <= 4294967295 -> size_ok format_limits n = true.
Proof. unfold size_ok, format_limits; cbn [lim8 lim16 lim32]. intros. split_ifs; lia. Qed.

Theorem enc_success_packable p :
  typed_pv p = true -> snd (enc p) = None -> packable format_limits p = true.
Proof.
  induction p as [| b | z | b | s | l IH | m IH | sig fs IH | t] using pv_ind'; intros Ht H;
    try reflexivity.
  - apply enc_int_inv in H. unfold MinInt64, MaxInt64 in H. cbn [packable]. lia.
  - exact Ht.
  - cbn [packable]. change (enc (PStr s)) with (enc_str s) in H. unfold enc_str in H.
    apply w_then_None in H. destruct H as [H _]. apply str_hdr_inv in H; [|apply zlen_nonneg].
    apply size_ok_format. pose proof (zlen_nonneg s). lia.
  - rewrite enc_list_eq in H. apply w_then_None in H. destruct H as [Hh Hl].
    apply slice_hdr_inv in Hh; [|apply zlen_nonneg]. cbn [packable].
    rewrite size_ok_format by (pose proof (zlen_nonneg l); lia). cbn [andb].
    clear Hh. cbn [typed_pv] in Ht.
    induction IH as [|x l Hx _ IHl]; [reflexivity|]. cbn [forallb] in *.
    apply andb_prop in Ht. destruct Ht as [Htx Htl].
    cbn [enc_all] in Hl. apply w_then_None in Hl. destruct Hl as [H1 H2].
    rewrite Hx, IHl; auto.
  - rewrite enc_map_eq in H. apply w_then_None in H. destruct H as [Hh Hl].
    apply map_hdr_inv in Hh; [|apply zlen_nonneg]. cbn [packable].
    rewrite size_ok_format by (pose proof (zlen_nonneg m); lia). cbn [andb].
    clear Hh. cbn [typed_pv] in Ht.
    induction IH as [|[k x] m Hx _ IHm]; [reflexivity|]. cbn [forallb fst snd] in *.
    apply andb_prop in Ht. destruct Ht as [Htx Htl].
    cbn [enc_entries] in Hl. apply w_then_None in Hl. destruct Hl as [H1 H2].
    apply w_then_None in H2. destruct H2 as [H2 H3].
    unfold enc_str in H1. apply w_then_None in H1. destruct H1 as [H1 _].
    apply str_hdr_inv in H1; [|apply zlen_nonneg].
    rewrite size_ok_format by (pose proof (zlen_nonneg k); lia).
    rewrite Hx, IHm; auto.
  - rewrite enc_struct_eq in H. apply w_then_None in H. destruct H as [Hh Hl].
    apply w_then_None in Hl. destruct Hl as [_ Hl].
    apply struct_hdr_inv in Hh; [|apply zlen_nonneg]. cbn [packable].
    rewrite size_ok_format by (pose proof (zlen_nonneg fs); lia).
    cbn [typed_pv] in Ht. apply andb_prop in Ht. destruct Ht as [Ht Ht0].
    replace (zlen fs <=? 65535) with true by lia. rewrite Ht. cbn [andb].
    clear Hh Ht.
    induction IH as [|x l Hx _ IHl]; [reflexivity|]. cbn [forallb] in *.
    apply andb_prop in Ht0. destruct Ht0 as [Htx Htl].
    cbn [enc_fields] in Hl. apply w_then_None in Hl. destruct Hl as [H1 H2].
    rewrite w_wrap_None in H1. rewrite Hx, IHl; auto.
  - discriminate.
Qed.
