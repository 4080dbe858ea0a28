(** Go values: which ones encode, and what they decode to (proofs). *)
From Coq Require Import ZArith List Bool Lia ZifyBool Btauto.
From Verif Require Import Bytes BytesFacts GoVal GoErr Encoder Decoder SpecPack SpecValues PackFacts DecodeFacts.
Import ListNotations.
Open Scope Z_scope.
Ltac Zify.zify_post_hook ::= Z.div_mod_to_equations.

Section GvalInd.
  Variable P : gval -> Prop.
  Let Pm (m : list (bytes * gval)) := Forall (fun kv => P (snd kv)) m.
  Hypothesis HNil : P GNil.
  Hypothesis HBool : forall b, P (GBool b).
  Hypothesis HInt : forall k z, P (GInt k z).
  Hypothesis HF32 : forall b, P (GFloat32 b).
  Hypothesis HF64 : forall b, P (GFloat64 b).
  Hypothesis HStr : forall s, P (GStr s).
  Hypothesis HSlice : forall l, Forall P l -> P (GSlice l).
  Hypothesis HTSlice : forall l, Forall P l -> P (GTSlice l).
  Hypothesis HMap : forall m, Pm m -> P (GMap m).
  Hypothesis HNode : forall id ls m, Pm m -> P (GNode id ls m).
  Hypothesis HRel : forall id a b t m, Pm m -> P (GRel id a b t m).
  Hypothesis HURel : forall id t m, Pm m -> P (GURel id t m).
  Hypothesis HPath : forall ns rs sq, Forall P ns -> Forall P rs -> P (GPath ns rs sq).
  Hypothesis HP2 : forall p a b c, P (GPoint2D p a b c).
  Hypothesis HP3 : forall p a b c d, P (GPoint3D p a b c d).
  Hypothesis HDate : forall d, P (GDate d).
  Hypothesis HClock : forall n o, P (GClock n o).
  Hypothesis HLClock : forall n, P (GLocalClock n).
  Hypothesis HLTime : forall s n, P (GLocalTime s n).
  Hypothesis HTime : forall s n o, P (GTime s n o).
  Hypothesis HDur : forall d, P (GDuration d).
  Hypothesis HSucc : forall m, Pm m -> P (GSuccess m).
  Hypothesis HFail : forall m, Pm m -> P (GFailure m).
  Hypothesis HRec : forall l, Forall P l -> P (GRecord l).
  Hypothesis HIgn : P GIgnored.
  Hypothesis HDA : P GDiscardAll.
  Hypothesis HPA : P GPullAll.
  Hypothesis HRs : P GReset.
  Hypothesis HStruct : forall s l, Forall P l -> P (GStructure s l).
  Hypothesis HOther : P GOther.

  Fixpoint gval_ind' (x : gval) : P x :=
    let fl := fix fl (l : list gval) : Forall P l :=
      match l with [] => Forall_nil _ | y :: l' => Forall_cons y (gval_ind' y) (fl l') end in
    let fm := fix fm (m : list (bytes * gval)) : Pm m :=
      match m with [] => Forall_nil _ | kv :: m' => Forall_cons kv (gval_ind' (snd kv)) (fm m') end in
    match x with
    | GNil => HNil | GBool b => HBool b | GInt k z => HInt k z | GFloat32 b => HF32 b
    | GFloat64 b => HF64 b | GStr s => HStr s
    | GSlice l => HSlice l (fl l) | GTSlice l => HTSlice l (fl l)
    | GMap m => HMap m (fm m) | GNode i l m => HNode i l m (fm m)
    | GRel i a b t m => HRel i a b t m (fm m) | GURel i t m => HURel i t m (fm m)
    | GPath ns rs sq => HPath ns rs sq (fl ns) (fl rs)
    | GPoint2D p a b c => HP2 p a b c | GPoint3D p a b c d => HP3 p a b c d
    | GDate d => HDate d | GClock n o => HClock n o | GLocalClock n => HLClock n
    | GLocalTime s n => HLTime s n | GTime s n o => HTime s n o | GDuration d => HDur d
    | GSuccess m => HSucc m (fm m) | GFailure m => HFail m (fm m) | GRecord l => HRec l (fl l)
    | GIgnored => HIgn | GDiscardAll => HDA | GPullAll => HPA | GReset => HRs
    | GStructure s l => HStruct s l (fl l) | GOther => HOther
    end.
End GvalInd.

Lemma int64_small z : -9223372036854775808 <= z < 9223372036854775808 -> int64 z = z.
Proof.
  intros H. unfold int64. apply to_signed_small; [lia|].
  change (256 ^ Z.of_nat 8 / 2) with 9223372036854775808. lia.
Qed.

Lemma int64_range z : -9223372036854775808 <= int64 z < 9223372036854775808.
Proof.
  unfold int64. pose proof (to_signed_range 8 z ltac:(lia)) as H.
  change (256 ^ Z.of_nat 8 / 2) with 9223372036854775808 in H. lia.
Qed.

Lemma in_kind_small k z : in_kind k z = true -> k <> KUint -> k <> KUint64 ->
  -9223372036854775808 <= z < 9223372036854775808.
Proof. unfold in_kind. destruct k; cbn; intros; try congruence; lia. Qed.

Lemma time_fields_typed s n off : is_int64 s = true -> 0 <= n < 1000000000 -> is_int64 off = true ->
  exists a b, time_fields s n off = [PInt a; PInt b; PInt off]
    /\ -9223372036854775808 <= a < 9223372036854775808 /\ 0 <= b < 1000000000.
Proof.
  intros Hs Hn Ho. unfold time_fields, time_add.
  set (d := int64 (off * 1000000000)).
  pose proof (Z.rem_bound_abs d 1000000000 ltac:(lia)).
  destruct (n + Z.rem d 1000000000 >=? 1000000000) eqn:E1;
    [|destruct (n + Z.rem d 1000000000 <? 0) eqn:E2];
    eexists; eexists; (split; [reflexivity|]); (split; [apply int64_range|]); lia.
Qed.

Lemma time_fields_local s n off :
  0 <= n < 1000000000 -> -2147483648 <= off < 2147483648 -> is_int64 (s + off) = true ->
  time_fields s n off = [PInt (s + off); PInt n; PInt off].
Proof.
  intros Hn Ho Hs. unfold time_fields.
  rewrite int64_small by lia. unfold time_add. rewrite Z.quot_mul, Z.rem_mul by lia.
  destruct (n + 0 >=? 1000000000) eqn:E1; [lia|].
  destruct (n + 0 <? 0) eqn:E2; [lia|]. unfold is_int64 in Hs.
  change (2 ^ 63) with 9223372036854775808 in Hs. rewrite int64_small by lia. repeat f_equal; lia.
Qed.

Lemma f64_bits_range f : 0 <= f64_bits f < 2 ^ 64.
Proof. unfold f64_bits, to_unsigned. change (2 ^ 64) with (256 ^ Z.of_nat 8).
       apply Z.mod_pos_bound. reflexivity. Qed.

Lemma f32_to_f64_range b : 0 <= b < 2 ^ 32 -> 0 <= f32_to_f64 b < 2 ^ 64.
Proof.
  intros H. unfold f32_to_f64.
  set (m := b mod 2 ^ 23). set (e := (b / 2 ^ 23) mod 256). set (s := b / 2 ^ 31).
  assert (Hm : 0 <= m < 2 ^ 23) by (apply Z.mod_pos_bound; lia).
  assert (He : 0 <= e < 256) by (apply Z.mod_pos_bound; lia).
  assert (Hs : 0 <= s <= 1) by (unfold s; change (2 ^ 32) with 4294967296 in H;
                                change (2 ^ 31) with 2147483648; lia).
  clearbody m e s.
  assert (P : 2 ^ 64 = 2 * 2 ^ 63 /\ 2 ^ 63 = 2048 * 2 ^ 52 /\ 2 ^ 52 = 2 * 2 ^ 51 /\ 2 ^ 51 = 2^22 * 2 ^ 29
              /\ 2 ^ 52 = 2 ^ 23 * 2 ^ 29) by (repeat split).
  destruct P as [P1 [P2 [P3 [P4 P5]]]].
  assert (0 < 2 ^ 52) by reflexivity. assert (0 < 2 ^ 29) by reflexivity. assert (0 < 2 ^ 23) by reflexivity.
  destruct (e =? 255) eqn:E1.
  - destruct (m =? 0) eqn:E2; [nia|].
    assert (0 <= Z.lor (m * 2 ^ 29) (2 ^ 51) < 2 ^ 52).
    { split; [apply Z.lor_nonneg; split; [nia|now apply Z.pow_nonneg]|].
      assert (m * 2 ^ 29 < 2 ^ 52) by nia.
      destruct (Z.eq_dec (Z.lor (m * 2 ^ 29) (2 ^ 51)) 0) as [->|Hnz]; [reflexivity|].
      apply Z.log2_lt_pow2.
      - assert (0 <= Z.lor (m * 2 ^ 29) (2 ^ 51)); [|lia].
        apply Z.lor_nonneg; split; [nia|now apply Z.pow_nonneg].
      - rewrite Z.log2_lor by (try (now apply Z.pow_nonneg); nia).
        apply Z.max_lub_lt; [|reflexivity]. apply Z.log2_lt_pow2; nia. }
    nia.
  - destruct (e =? 0) eqn:E2.
    + destruct (m =? 0) eqn:E3; [nia|].
      pose proof (Z.log2_spec m ltac:(lia)) as [Hl1 Hl2].
      pose proof (Z.log2_nonneg m).
      assert (Hl : Z.log2 m < 23) by (apply Z.log2_lt_pow2; lia).
      set (k := Z.log2 m) in *.
      rewrite Z.pow_succ_r in Hl2 by lia.
      assert (Hp : 2 ^ k * 2 ^ (52 - k) = 2 ^ 52)
        by (rewrite <- Z.pow_add_r by lia; f_equal; lia).
      assert (0 < 2 ^ (52 - k)) by (apply Z.pow_pos_nonneg; lia).
      set (q := 2 ^ (52 - k)) in *. set (r := 2 ^ k) in *. clearbody q r k.
      assert (0 <= (m - r) * q < 2 ^ 52) by nia. nia.
    + assert (0 <= m * 2 ^ 29 < 2 ^ 52) by nia. nia.
Qed.

(** ** Which values can be represented *)

Lemma size_ok_small L n : 0 <= n <= 15 -> size_ok L n = true.
Proof. intros. unfold size_ok. destruct (n <=? 15) eqn:E; [reflexivity|lia]. Qed.

Definition good (L : limits) (v : ver) (x : gval) : bool :=
  supported v x && forallb (size_ok L) (lens x) && struct_sizes_ok x.

(** A Go map can be represented iff all its entries can. *)
Lemma packable_entries L v m :
  Forall (fun kv => go_typed (snd kv) = true -> packable L (lower v (snd kv)) = good L v (snd kv)) m ->
  forallb (fun kv => go_typed (snd kv)) m = true ->
  packable L (PMap (map (fun kv => (fst kv, lower v (snd kv))) m))
  = forallb (fun kv => supported v (snd kv)) m
    && forallb (size_ok L) (zlen m :: flat_map (fun kv => zlen (fst kv) :: lens (snd kv)) m)
    && forallb (fun kv => struct_sizes_ok (snd kv)) m.
Proof.
  intros IH Ht. cbn [packable forallb]. rewrite zlen_map.
  match goal with |- _ && ?A = ?B && (_ && ?C) && ?D => enough (A = B && C && D) as -> end.
  { destruct (size_ok L (zlen m)); cbn [andb]; [reflexivity|].
    now rewrite andb_false_r. }
  induction IH as [|[k x] m Hx _ IHm]; [reflexivity|].
  cbn [map flat_map forallb fst snd] in *. apply andb_prop in Ht as [Ht1 Ht2].
  rewrite Hx by assumption. rewrite IHm by assumption. unfold good.
  rewrite forallb_app. cbn [forallb].
  btauto.
Qed.

Lemma packable_items L v l :
  Forall (fun x => go_typed x = true -> packable L (lower v x) = good L v x) l ->
  forallb go_typed l = true ->
  forallb (packable L) (map (lower v) l)
  = forallb (supported v) l && forallb (size_ok L) (flat_map lens l) && forallb struct_sizes_ok l.
Proof.
  induction 1 as [|x l Hx _ IH]; intros Ht; [reflexivity|].
  cbn [map forallb flat_map] in *. apply andb_prop in Ht as [Ht1 Ht2].
  rewrite Hx, IH by assumption. unfold good. rewrite forallb_app.
  btauto.
Qed.

Lemma int64_bool z : is_int64 z = true -> (- 2 ^ 63 <=? z) && (z <? 2 ^ 63) = true.
Proof. auto. Qed.

Ltac bsplit :=
  repeat match goal with
         | H : _ && _ = true |- _ => apply andb_prop in H as [? ?]
         end.

Lemma forallb_ints L sq : forallb is_int64 sq = true -> forallb (packable L) (map PInt sq) = true.
Proof.
  induction sq as [|z sq IH]; cbn [map forallb packable]; intros H; [reflexivity|]. bsplit.
  rewrite IH by assumption. fold (is_int64 z). rewrite H. reflexivity.
Qed.

Lemma forallb_strs L ls : forallb (packable L) (map PStr ls) = forallb (size_ok L) (map zlen ls).
Proof. induction ls as [|s ls IH]; cbn [map forallb packable]; [reflexivity|]. now rewrite IH. Qed.

Lemma int_pk L z : -9223372036854775808 <= z < 9223372036854775808 -> packable L (PInt z) = true.
Proof. intros. cbn [packable]. change (2 ^ 63) with 9223372036854775808. lia. Qed.

Lemma int_pk' L z : is_int64 z = true -> packable L (PInt z) = true.
Proof. auto. Qed.

Lemma float_pk L b : 0 <= b < 2 ^ 64 -> packable L (PFloat b) = true.
Proof. intros. cbn [packable]. apply andb_true_intro. split; [apply Z.leb_le|apply Z.ltb_lt]; apply H. Qed.

Lemma packable_small_struct L sig fs : 0 <= sig < 256 -> (length fs <= 15)%nat ->
  packable L (PStruct sig fs) = forallb (packable L) fs.
Proof.
  intros Hs Hl. cbn [packable]. rewrite size_ok_small by (unfold zlen; lia).
  replace ((0 <=? sig) && (sig <? 256) && (zlen fs <=? 65535)) with true by (unfold zlen; lia).
  reflexivity.
Qed.

(** A well-typed Go value is representable iff it is supported and within the size limits. *)
Lemma packable_lower L v x :
  go_typed x = true -> packable L (lower v x) = good L v x.
Proof.
  unfold good.
  induction x using gval_ind'; intros Ht; cbn [go_typed] in Ht; cbn [lower supported lens struct_sizes_ok].
  - reflexivity.
  - reflexivity.
  - unfold int_arg. change MaxInt64 with 9223372036854775807.
    destruct k; cbn [forallb andb];
      try (rewrite int_pk; [reflexivity|]; apply int64_range).
    unfold in_kind in Ht. cbn [kind_min kind_max] in Ht.
    destruct (z >? 9223372036854775807) eqn:E.
    + change (2 ^ 63) with 9223372036854775808. cbn [packable].
      destruct (z <? 9223372036854775808) eqn:E2; [lia|reflexivity].
    + rewrite int_pk by apply int64_range. change (2 ^ 63) with 9223372036854775808.
      destruct (z <? 9223372036854775808) eqn:E2; [reflexivity|lia].
  - cbn [packable]. pose proof (f32_to_f64_range b ltac:(lia)).
    destruct (0 <=? f32_to_f64 b) eqn:?, (f32_to_f64 b <? 2 ^ 64) eqn:?; try reflexivity; lia.
  - cbn [packable]. fold (is_bits64 b). rewrite Ht. reflexivity.
  - cbn [packable forallb]. now rewrite !andb_true_r.
  - cbn [packable forallb]. rewrite zlen_map, (packable_items L v l H Ht). btauto.
  - cbn [packable forallb]. rewrite zlen_map, (packable_items L v l H Ht). btauto.
  - bsplit. apply packable_entries; assumption.
  - bsplit. rewrite packable_small_struct by (first [split; reflexivity | split; [discriminate|reflexivity] | cbn; lia]). cbn [forallb].
    rewrite (packable_entries L v m H) by assumption.
    rewrite !int_pk' by assumption.
    cbn [packable forallb]. rewrite zlen_map, forallb_strs, forallb_app. cbn [forallb]. btauto.
  - bsplit. rewrite packable_small_struct by (first [split; reflexivity | split; [discriminate|reflexivity] | cbn; lia]). cbn [forallb].
    rewrite (packable_entries L v m H) by assumption.
    rewrite !int_pk' by assumption.
    cbn [packable forallb]. btauto.
  - bsplit. rewrite packable_small_struct by (first [split; reflexivity | split; [discriminate|reflexivity] | cbn; lia]). cbn [forallb].
    rewrite (packable_entries L v m H) by assumption.
    rewrite !int_pk' by assumption.
    cbn [packable forallb]. btauto.
  - bsplit. rewrite packable_small_struct by (first [split; reflexivity | split; [discriminate|reflexivity] | cbn; lia]). cbn [forallb packable].
    rewrite !zlen_map, (packable_items L v ns), (packable_items L v rs), forallb_ints by assumption.
    rewrite !forallb_app. cbn [forallb]. rewrite !forallb_app. cbn [forallb]. btauto.
  - destruct p; [|reflexivity]. bsplit. rewrite packable_small_struct by (first [split; reflexivity | split; [discriminate|reflexivity] | cbn; lia]).
    cbn [forallb]. rewrite !int_pk' by assumption. cbn [packable].
    fold (is_bits64 b) (is_bits64 c). replace (is_bits64 b) with true by auto.
    replace (is_bits64 c) with true by auto. reflexivity.
  - destruct p; [|reflexivity]. bsplit. rewrite packable_small_struct by (first [split; reflexivity | split; [discriminate|reflexivity] | cbn; lia]).
    cbn [forallb]. rewrite !int_pk' by assumption. cbn [packable].
    fold (is_bits64 b) (is_bits64 c) (is_bits64 d). replace (is_bits64 b) with true by auto.
    replace (is_bits64 c) with true by auto. replace (is_bits64 d) with true by auto. reflexivity.
  - destruct v; [reflexivity|]. rewrite packable_small_struct by (first [split; reflexivity | split; [discriminate|reflexivity] | cbn; lia]).
    cbn [forallb]. rewrite int_pk by apply int64_range. reflexivity.
  - destruct v; [reflexivity|]. bsplit. rewrite packable_small_struct by (first [split; reflexivity | split; [discriminate|reflexivity] | cbn; lia]).
    cbn [forallb]. rewrite !int_pk' by assumption. reflexivity.
  - destruct v; [reflexivity|]. bsplit. rewrite packable_small_struct by (first [split; reflexivity | split; [discriminate|reflexivity] | cbn; lia]).
    cbn [forallb]. rewrite !int_pk' by assumption. reflexivity.
  - destruct v; [reflexivity|]. bsplit. rewrite packable_small_struct by (first [split; reflexivity | split; [discriminate|reflexivity] | cbn; lia]).
    cbn [forallb]. rewrite !int_pk' by assumption. reflexivity.
  - destruct v; [reflexivity|]. bsplit.
    destruct (time_fields_typed s n o) as [a [b [E [Ha Hb]]]]; [assumption|lia|assumption|].
    rewrite E, packable_small_struct by (first [split; reflexivity | split; [discriminate|reflexivity] | cbn; lia]).
    cbn [forallb]. rewrite (int_pk' L o) by assumption. rewrite !int_pk by lia. reflexivity.
  - destruct v; [reflexivity|]. rewrite packable_small_struct by (first [split; reflexivity | split; [discriminate|reflexivity] | cbn; lia]).
    unfold duration_fields. cbn [forallb]. rewrite !int_pk' by assumption.
    rewrite !float_pk by apply f64_bits_range. reflexivity.
  - bsplit. rewrite packable_small_struct by (first [split; reflexivity | split; [discriminate|reflexivity] | cbn; lia]). cbn [forallb].
    rewrite (packable_entries L v m H) by assumption. cbn [forallb]. btauto.
  - bsplit. rewrite packable_small_struct by (first [split; reflexivity | split; [discriminate|reflexivity] | cbn; lia]). cbn [forallb].
    rewrite (packable_entries L v m H) by assumption. cbn [forallb]. btauto.
  - rewrite packable_small_struct by (first [split; reflexivity | split; [discriminate|reflexivity] | cbn; lia]). cbn [forallb packable].
    rewrite zlen_map, (packable_items L v l H Ht). btauto.
  - reflexivity.
  - reflexivity.
  - reflexivity.
  - reflexivity.
  - bsplit. cbn [packable forallb]. rewrite zlen_map, (packable_items L v l) by assumption.
    replace ((0 <=? s) && (s <? 256)) with true by lia. btauto.
  - reflexivity.
Qed.

(** ** What a value is received as *)

Notation rcv := (received f32_to_f64).
Notation rprops m := (map (fun kv => (fst kv, rcv (snd kv))) m).

Lemma meaning_items v l :
  Forall (fun x => go_typed x = true -> plain v x = true -> meaning v (lower v x) = Some (rcv x)) l ->
  forallb go_typed l = true -> forallb (plain v) l = true ->
  all_some (map (meaning v) (map (lower v) l)) = Some (map rcv l).
Proof.
  induction 1 as [|x l Hx _ IH]; intros Ht Hp; [reflexivity|].
  cbn [map forallb all_some] in *. bsplit. rewrite Hx, IH by assumption. reflexivity.
Qed.

Lemma meaning_entries v m :
  Forall (fun kv => go_typed (snd kv) = true -> plain v (snd kv) = true ->
                    meaning v (lower v (snd kv)) = Some (rcv (snd kv))) m ->
  nodupb (map fst m) = true ->
  forallb (fun kv => go_typed (snd kv)) m = true -> forallb (fun kv => plain v (snd kv)) m = true ->
  meaning v (PMap (map (fun kv => (fst kv, lower v (snd kv))) m)) = Some (GMap (rprops m)).
Proof.
  intros IH Hnd Ht Hp. cbn [meaning].
  replace (map fst (map (fun kv => (fst kv, lower v (snd kv))) m)) with (map fst m)
    by (rewrite map_map; reflexivity).
  rewrite Hnd.
  match goal with |- match ?A with _ => _ end = _ =>
    enough (A = Some (map (fun kv => rcv (snd kv)) m)) as -> end.
  - f_equal. f_equal. clear. induction m as [|[k x] m IH]; [reflexivity|]. cbn in *. now rewrite IH.
  - clear Hnd. induction IH as [|[k x] m Hx _ IHm]; [reflexivity|].
    cbn [map forallb all_some fst snd] in *. bsplit. rewrite Hx, IHm by assumption. reflexivity.
Qed.

Lemma all_some_strs v ls :
  all_some (map (meaning v) (map PStr ls)) = Some (map GStr ls)
  /\ all_some (map str_of (map GStr ls)) = Some ls.
Proof.
  induction ls as [|s ls [IH1 IH2]]; [split; reflexivity|]. cbn [map all_some meaning str_of].
  rewrite IH1, IH2. split; reflexivity.
Qed.

Lemma all_some_ints v zs :
  all_some (map (meaning v) (map PInt zs)) = Some (map (GInt KInt64) zs)
  /\ all_some (map int_of (map (GInt KInt64) zs)) = Some zs.
Proof.
  induction zs as [|s zs [IH1 IH2]]; [split; reflexivity|]. cbn [map all_some meaning int_of].
  rewrite IH1, IH2. split; reflexivity.
Qed.

Lemma all_some_nodes ns :
  forallb (fun x => match x with GNode _ _ _ => true | _ => false end) ns = true ->
  all_some (map node_of (map rcv ns)) = Some (map rcv ns).
Proof.
  induction ns as [|x ns IH]; intros H; [reflexivity|]. cbn [map forallb all_some] in *. bsplit.
  destruct x; try discriminate. cbn [node_of received]. now rewrite IH.
Qed.
Lemma all_some_urels ns :
  forallb (fun x => match x with GURel _ _ _ => true | _ => false end) ns = true ->
  all_some (map urel_of (map rcv ns)) = Some (map rcv ns).
Proof.
  induction ns as [|x ns IH]; intros H; [reflexivity|]. cbn [map forallb all_some] in *. bsplit.
  destruct x; try discriminate. cbn [urel_of received]. now rewrite IH.
Qed.

Lemma meaning_struct v sig fs gs :
  all_some (map (meaning v) fs) = Some gs -> meaning v (PStruct sig fs) = struct_meaning v sig gs.
Proof. intros H. cbn [meaning]. now rewrite H. Qed.

Lemma is_int64_iff z : is_int64 z = true <-> -9223372036854775808 <= z < 9223372036854775808.
Proof. unfold is_int64. change (2 ^ 63) with 9223372036854775808. lia. Qed.

(** The item a value is encoded as means the value it should be received as. *)
Theorem meaning_lower v x :
  go_typed x = true -> plain v x = true -> meaning v (lower v x) = Some (rcv x).
Proof.
  induction x using gval_ind'; intros Ht Hp; cbn [go_typed plain] in Ht, Hp; cbn [lower received];
    try reflexivity; try discriminate.
  - assert (Hz : -9223372036854775808 <= z < 9223372036854775808).
    { unfold in_kind in Ht. change (2 ^ 63) with 9223372036854775808 in Hp.
      destruct k; cbn [kind_min kind_max] in Ht; change (2 ^ 63) with 9223372036854775808 in Ht; lia. }
    unfold int_arg. rewrite int64_small by assumption. change MaxInt64 with 9223372036854775807.
    destruct (z >? 9223372036854775807) eqn:E; [lia|]. destruct k; reflexivity.
  - cbn [meaning]. now rewrite (meaning_items v l H Ht Hp).
  - cbn [meaning]. now rewrite (meaning_items v l H Ht Hp).
  - bsplit. now apply meaning_entries.
  - bsplit. erewrite meaning_struct.
    2:{ cbn [map all_some]. rewrite (meaning_entries v m H) by assumption. cbn [meaning].
        rewrite (proj1 (all_some_strs v ls)). reflexivity. }
    unfold struct_meaning, SigNode. cbn [Z.eqb Pos.eqb]. now rewrite (proj2 (all_some_strs v ls)).
  - bsplit. erewrite meaning_struct.
    2:{ cbn [map all_some]. rewrite (meaning_entries v m H) by assumption. reflexivity. }
    reflexivity.
  - bsplit. erewrite meaning_struct.
    2:{ cbn [map all_some]. rewrite (meaning_entries v m H) by assumption. reflexivity. }
    reflexivity.
  - bsplit. erewrite meaning_struct.
    2:{ cbn [map all_some meaning]. rewrite (meaning_items v ns), (meaning_items v rs) by assumption.
        rewrite (proj1 (all_some_ints v sq)). reflexivity. }
    unfold struct_meaning, SigPath. cbn [Z.eqb Pos.eqb].
    now rewrite all_some_nodes, all_some_urels, (proj2 (all_some_ints v sq)).
  - destruct v; [discriminate|]. cbn in Hp. destruct p; [|discriminate]. reflexivity.
  - destruct v; [discriminate|]. cbn in Hp. destruct p; [|discriminate]. reflexivity.
  - destruct v; [discriminate|]. apply is_int64_iff in Ht. rewrite int64_small by lia. reflexivity.
  - destruct v; [discriminate|]. reflexivity.
  - destruct v; [discriminate|]. reflexivity.
  - destruct v; [discriminate|]. reflexivity.
  - destruct v; [discriminate|]. bsplit. change (2 ^ 31) with 2147483648 in *.
    rewrite time_fields_local by (try assumption; lia).
    cbn [meaning map all_some]. unfold struct_meaning, SigDateTimeOffset. cbn [Z.eqb Pos.eqb].
    replace ((0 <=? n) && (n <? 1000000000) && (-2147483648 <=? o) && (o <? 2147483648)) with true by lia.
    repeat f_equal; lia.
  - bsplit. erewrite meaning_struct.
    2:{ cbn [map all_some]. rewrite (meaning_entries v m H) by assumption. reflexivity. }
    reflexivity.
  - bsplit. erewrite meaning_struct.
    2:{ cbn [map all_some]. rewrite (meaning_entries v m H) by assumption. reflexivity. }
    reflexivity.
  - erewrite meaning_struct.
    2:{ cbn [map all_some meaning]. rewrite (meaning_items v l) by assumption. reflexivity. }
    reflexivity.
Qed.

Lemma forallb_impl {A} (f g : A -> bool) l :
  Forall (fun x => f x = true -> g x = true) l -> forallb f l = true -> forallb g l = true.
Proof.
  induction 1; cbn [forallb]; intros Hf; [reflexivity|]. bsplit.
  rewrite H, IHForall by assumption. reflexivity.
Qed.

Lemma plain_supported v x : plain v x = true -> supported v x = true.
Proof.
  induction x using gval_ind'; intros Hp; cbn [plain supported] in *; try reflexivity;
    try assumption; try discriminate;
    try (destruct v; [discriminate|]; bsplit; solve [assumption | reflexivity]);
    try (eapply forallb_impl; [|exact Hp]; assumption).
  - destruct k; auto.
  - bsplit. apply andb_true_intro. split; (eapply forallb_impl; [|eassumption]); assumption.
Qed.

Lemma plain_struct_sizes v x : plain v x = true -> struct_sizes_ok x = true.
Proof.
  induction x using gval_ind'; intros Hp; cbn [plain struct_sizes_ok] in *; try reflexivity;
    try assumption; try discriminate;
    try (eapply forallb_impl; [|exact Hp]; assumption).
  - bsplit. apply andb_true_intro. split; (eapply forallb_impl; [|eassumption]); assumption.
Qed.

Lemma plain_packable L v x : go_typed x = true -> plain v x = true ->
  forallb (size_ok L) (lens x) = true -> packable L (lower v x) = true.
Proof.
  intros Ht Hp Hl. rewrite packable_lower by assumption. unfold good.
  now rewrite (plain_supported v x), Hl, (plain_struct_sizes v x).
Qed.

Lemma signed_limits_ok : limits_ok signed_limits.
Proof. unfold limits_ok; cbn; lia. Qed.
Lemma format_limits_ok : limits_ok format_limits.
Proof. unfold limits_ok; cbn; lia. Qed.

(** Round trip at the level of message payloads. *)
Theorem encode_decode v tz x rest :
  go_typed x = true -> plain v x = true -> forallb (size_ok signed_limits) (lens x) = true ->
  snd (encode v x) = None /\ decode v tz (wbytes (encode v x) ++ rest) = Ok (rcv x, rest).
Proof.
  intros Ht Hp Hl. unfold encode.
  destruct (enc_packs signed_limits (lower v x) signed_limits_ok (plain_packable _ v x Ht Hp Hl)) as [H1 H2].
  split; [assumption|]. eapply decode_packs_top; [eassumption|]. now apply meaning_lower.
Qed.

(** Encoding succeeds exactly for supported values within the size limits of the format. *)
Lemma typed_lower v x : go_typed x = true -> typed_pv (lower v x) = true.
Proof.
  assert (Ents : forall m, Forall (fun kv : bytes * gval => go_typed (snd kv) = true -> typed_pv (lower v (snd kv)) = true) m ->
     forallb (fun kv : bytes * gval => go_typed (snd kv)) m = true ->
     forallb (fun kv : bytes * pv => typed_pv (snd kv)) (map (fun kv => (fst kv, lower v (snd kv))) m) = true).
  { induction 1; cbn [map forallb snd]; intros; [reflexivity|]. bsplit. now rewrite H, IHForall. }
  assert (Its : forall l, Forall (fun x : gval => go_typed x = true -> typed_pv (lower v x) = true) l ->
     forallb go_typed l = true -> forallb typed_pv (map (lower v) l) = true).
  { induction 1; cbn [map forallb snd]; intros; [reflexivity|]. bsplit. now rewrite H, IHForall. }
  assert (Fl : forall b, 0 <= b < 2 ^ 64 -> typed_pv (PFloat b) = true).
  { intros b Hb. apply (float_pk format_limits b Hb). }
  assert (Ints : forall l, forallb typed_pv (map PInt l) = true) by (induction l; auto).
  assert (Strs : forall l, forallb typed_pv (map PStr l) = true) by (induction l; auto).
  induction x using gval_ind'; intros Ht; cbn [go_typed lower] in *; try reflexivity;
    try (destruct v; reflexivity); bsplit.
  - unfold int_arg. destruct k; try reflexivity. destruct (z >? MaxInt64); reflexivity.
  - apply Fl, f32_to_f64_range. lia.
  - assumption.
  - cbn [typed_pv]. now apply Its.
  - cbn [typed_pv]. now apply Its.
  - cbn [typed_pv]. now apply Ents.
  - cbn [typed_pv forallb]. rewrite Strs, Ents by assumption. reflexivity.
  - cbn [typed_pv forallb]. rewrite Ents by assumption. reflexivity.
  - cbn [typed_pv forallb]. rewrite Ents by assumption. reflexivity.
  - cbn [typed_pv forallb]. rewrite !Its, Ints by assumption. reflexivity.
  - destruct p; [|reflexivity]. cbn [typed_pv forallb]. fold (is_bits64 b) (is_bits64 c). 
    rewrite H1, H0. reflexivity.
  - destruct p; [|reflexivity]. cbn [typed_pv forallb]. fold (is_bits64 b) (is_bits64 c) (is_bits64 d).
    rewrite H0, H1, H2. reflexivity.
  - destruct v; [reflexivity|]. destruct (time_fields_typed s n o) as [a [b [E _]]]; [assumption|lia|assumption|].
    rewrite E. reflexivity.
  - destruct v; [reflexivity|]. unfold duration_fields. cbn [typed_pv forallb].
    pose proof (fun f => Fl (f64_bits f) (f64_bits_range f)) as F. cbn [typed_pv] in F.
    rewrite !F. reflexivity.
  - cbn [typed_pv forallb]. rewrite Ents by assumption. reflexivity.
  - cbn [typed_pv forallb]. rewrite Ents by assumption. reflexivity.
  - cbn [typed_pv forallb]. rewrite Its by assumption. reflexivity.
  - cbn [typed_pv]. rewrite Its by assumption. lia.
Qed.

Theorem encode_accepts v x : go_typed x = true ->
  (snd (encode v x) = None <->
   supported v x = true /\ forallb (size_ok format_limits) (lens x) = true /\ struct_sizes_ok x = true).
Proof.
  intros Ht. pose proof (packable_lower format_limits v x Ht) as Hg. unfold good in Hg. unfold encode. split.
  - intros H. apply (enc_success_packable _ (typed_lower v x Ht)) in H. rewrite H in Hg.
    symmetry in Hg. bsplit. auto.
  - intros [H1 [H2 H3]]. rewrite H1, H2, H3 in Hg.
    apply (enc_packs format_limits _ format_limits_ok Hg).
Qed.

Theorem encode_valid v x : go_typed x = true -> snd (encode v x) = None ->
  packs format_limits (lower v x) (wbytes (encode v x)).
Proof.
  intros Ht H. apply (enc_packs format_limits _ format_limits_ok).
  exact (enc_success_packable _ (typed_lower v x Ht) H).
Qed.
