(** Value-level facts: items, integer sizes, map order, slice types, floats, received values. *)
From Coq Require Import ZArith List Bool Lia ZifyBool Permutation.
From Verif Require Import Bytes BytesFacts GoVal GoErr Encoder Decoder SpecPack SpecValues SpecCodec
  PackFacts DecodeFacts ValueFacts.
Import ListNotations.
Open Scope Z_scope.
Ltac Zify.zify_post_hook ::= Z.div_mod_to_equations.

(** ** The encoder builds the published item *)

Lemma map_ext_Forall' {A B} (f g : A -> B) (P : A -> bool) (Q : A -> bool) l :
  Forall (fun x => P x = true -> Q x = true -> f x = g x) l -> forallb P l = true -> forallb Q l = true ->
  map f l = map g l.
Proof.
  induction 1; cbn; intros HP HQ; [reflexivity|]. apply andb_prop in HP, HQ. destruct HP, HQ. f_equal; auto.
Qed.

Lemma lower_item v x : go_typed x = true -> plain v x = true -> lower v x = item f32_to_f64 x.
Proof.
  assert (P : forall m : list (bytes * gval), Forall (fun kv => go_typed (snd kv) = true -> plain v (snd kv) = true ->
                                  lower v (snd kv) = item f32_to_f64 (snd kv)) m ->
    forallb (fun kv : bytes * gval => go_typed (snd kv)) m = true ->
    forallb (fun kv : bytes * gval => plain v (snd kv)) m = true ->
    map (fun kv => (fst kv, lower v (snd kv))) m = map (fun kv => (fst kv, item f32_to_f64 (snd kv))) m).
  { intros m H H1 H2. eapply map_ext_Forall'; [|exact H1|exact H2]. eapply Forall_impl; [|exact H].
    intros kv Hkv A B. f_equal. auto. }
  induction x using gval_ind'; intros Ht Hp; cbn [go_typed plain] in Ht, Hp; cbn [lower item]; bsplit;
    try reflexivity; try discriminate;
    try (rewrite P by assumption; reflexivity);
    try (f_equal; eapply map_ext_Forall'; eassumption).
  - (* int *) assert (R : -9223372036854775808 <= z < 9223372036854775808).
    { unfold in_kind in Ht. change (2 ^ 63) with 9223372036854775808 in Hp.
      destruct k; cbn in Ht; lia. }
    unfold int_arg. rewrite int64_small by exact R. destruct k; try reflexivity.
    unfold MaxInt64. destruct (z >? 9223372036854775807) eqn:E; [lia|reflexivity].
  - (* path *) f_equal. f_equal; [|f_equal]; f_equal; eapply map_ext_Forall'; eassumption.
  - destruct p; [|destruct v; discriminate]. reflexivity.
  - destruct p; [|destruct v; discriminate]. reflexivity.
  - destruct v; [discriminate|]. apply is_int64_iff in Ht. now rewrite int64_small.
  - destruct v; [discriminate|]. reflexivity.
  - destruct v; [discriminate|]. reflexivity.
  - destruct v; [discriminate|]. reflexivity.
  - destruct v; [discriminate|]. rewrite time_fields_local; [reflexivity|lia|lia|assumption].
  - f_equal. f_equal. f_equal. eapply map_ext_Forall'; eassumption.
Qed.

(** ** Integers take the smallest size *)

Lemma enc_int_minimal L z bs : packs L (PInt z) bs -> zlen (wbytes (enc_int z)) <= zlen bs.
Proof.
  intros H.
  unfold enc_int, MinInt64, MaxInt64, MinInt32, MaxInt32, MinInt16, MaxInt16, MinInt8, MaxInt8.
  inversion H as [| | |? b Hr [Hl [Hv _]]|? s [Hl [Hv _]]|? s [Hl [Hv _]]|? s [Hl [Hv _]]|? s [Hl [Hv _]]| | | | |];
    subst; cbn in Hv; rewrite ?zlen_cons; unfold zlen at 2; rewrite ?Hl; cbn [length];
    split_ifs; unfold w_ok, wbytes, w_err; cbn [fst concat]; rewrite ?zlen_app, ?zlen_be, ?zlen_cons;
    change (zlen (@nil byte)) with 0; lia.
Qed.

(** ** Typed slices *)

Lemma lower_untype v x : lower v (untype x) = lower v x.
Proof.
  assert (P : forall m : list (bytes * gval), Forall (fun kv => lower v (untype (snd kv)) = lower v (snd kv)) m ->
    map (fun kv => (fst kv, lower v (snd kv))) (map (fun kv => (fst kv, untype (snd kv))) m)
    = map (fun kv => (fst kv, lower v (snd kv))) m).
  { induction 1 as [|[k y] m Hx _ IH]; cbn in *; congruence. }
  assert (Q : forall l, Forall (fun x => lower v (untype x) = lower v x) l ->
                        map (lower v) (map untype l) = map (lower v) l).
  { induction 1; cbn; congruence. }
  induction x using gval_ind'; cbn [untype lower]; try reflexivity; rewrite ?P, ?Q by assumption;
    try reflexivity.
Qed.

(** ** Map order *)

Scheme reorder_mut := Induction for reorder Sort Prop
  with reorder_list_mut := Induction for reorder_list Sort Prop
  with reorder_props_mut := Induction for reorder_props Sort Prop.
Combined Scheme reorder_ind3 from reorder_mut, reorder_list_mut, reorder_props_mut.

Lemma forallb_perm {A} (f : A -> bool) l l' : Permutation l l' -> forallb f l = forallb f l'.
Proof.
  induction 1; cbn; try congruence.
  now rewrite !andb_assoc, (andb_comm (f y)).
Qed.

Lemma bool_iff a b : (a = true <-> b = true) -> a = b.
Proof. destruct a, b; intuition congruence. Qed.

Lemma nodupb_perm l l' : Permutation l l' -> nodupb l = nodupb l'.
Proof.
  intros H. apply bool_iff. rewrite !nodupb_NoDup. split; intros; [|symmetry in H];
    eapply Permutation_NoDup; eauto.
Qed.

Lemma zlen_perm {A} (l l' : list A) : Permutation l l' -> zlen l = zlen l'.
Proof. intros H. unfold zlen. now rewrite (Permutation_length H). Qed.

Lemma flat_map_perm {A B} (f : A -> list B) l l' : Permutation l l' -> Permutation (flat_map f l) (flat_map f l').
Proof. apply Permutation_flat_map. Qed.

Ltac pm := solve [repeat first [assumption | reflexivity | apply perm_skip | apply Permutation_app]].

(** Reordering preserves the typing, the support and the sizes of a value. *)
Lemma reorder_ok v :
  (forall x y, reorder x y ->
     go_typed x = go_typed y /\ plain v x = plain v y /\ Permutation (lens x) (lens y)
     /\ Permutation (str_lens x) (str_lens y)
     /\ is_node x = is_node y /\ is_urel x = is_urel y /\ reorder (rcv x) (rcv y))
  /\ (forall l l', reorder_list l l' ->
     forallb go_typed l = forallb go_typed l' /\ forallb (plain v) l = forallb (plain v) l'
     /\ zlen l = zlen l' /\ Permutation (flat_map lens l) (flat_map lens l')
     /\ Permutation (flat_map str_lens l) (flat_map str_lens l')
     /\ forallb is_node l = forallb is_node l' /\ forallb is_urel l = forallb is_urel l'
     /\ reorder_list (map rcv l) (map rcv l'))
  /\ (forall m m', reorder_props m m' ->
     nodupb (map fst m) = nodupb (map fst m')
     /\ Permutation (map fst m) (map fst m')
     /\ forallb (fun kv => go_typed (snd kv)) m = forallb (fun kv => go_typed (snd kv)) m'
     /\ forallb (fun kv => plain v (snd kv)) m = forallb (fun kv => plain v (snd kv)) m'
     /\ zlen m = zlen m'
     /\ Permutation (flat_map (fun kv => zlen (fst kv) :: lens (snd kv)) m)
                    (flat_map (fun kv => zlen (fst kv) :: lens (snd kv)) m')
     /\ Permutation (flat_map (fun kv => zlen (fst kv) :: str_lens (snd kv)) m)
                    (flat_map (fun kv => zlen (fst kv) :: str_lens (snd kv)) m')
     /\ reorder_props (map (fun kv => (fst kv, rcv (snd kv))) m) (map (fun kv => (fst kv, rcv (snd kv))) m')).
Proof.
  apply reorder_ind3.
  - intros x. repeat split; try reflexivity. constructor.
  - intros l l' H [A [B [C [D [D' [E [F G]]]]]]]. cbn. rewrite C. repeat split; try congruence; auto.
    now constructor.
  - intros l l' H [A [B [C [D [D' [E [F G]]]]]]]. cbn. rewrite C. repeat split; try congruence; auto.
    now constructor.
  - intros l l' H [A [B [C [D [D' [E [F G]]]]]]]. cbn. rewrite C. repeat split; try congruence; auto.
    now constructor.
  - intros m m' H [A [A' [B [C [D [E [E' F]]]]]]]. cbn. rewrite A, B, C, D. repeat split; auto. now constructor.
  - intros m m' H [A [A' [B [C [D [E [E' F]]]]]]]. cbn. rewrite A, B, C, D. repeat split; auto. now constructor.
  - intros m m' H [A [A' [B [C [D [E [E' F]]]]]]]. cbn. rewrite A, B, C, D. repeat split; auto. now constructor.
  - intros id ls m m' H [A [A' [B [C [D [E [E' F]]]]]]]. cbn. rewrite A, B, C, D.
    repeat split; auto; try pm. now constructor.
  - intros id st en ty m m' H [A [A' [B [C [D [E [E' F]]]]]]]. cbn. rewrite A, B, C, D.
    repeat split; auto. now constructor.
  - intros id ty m m' H [A [A' [B [C [D [E [E' F]]]]]]]. cbn. rewrite A, B, C, D.
    repeat split; auto. now constructor.
  - intros ns ns' rs rs' sq H1 [A [B [C [D [D' [E [F G]]]]]]] H2 [A2 [B2 [C2 [D2 [D2' [E2 [F2 G2]]]]]]].
    cbn. unfold is_node in E, E2. unfold is_urel in F, F2. rewrite A, B, C, A2, B2, C2, E, F2.
    repeat split; auto; try pm. now constructor.
  - cbn. repeat split; auto. constructor.
  - intros x y l l' H1 [A [B [C [C' [D [E F]]]]]] H2 [A2 [B2 [C2 [D2 [D2' [E2 [F2 G2]]]]]]].
    cbn [map forallb flat_map]. rewrite A, B, D, E, A2, B2, E2, F2. rewrite !zlen_cons, C2.
    repeat split; auto using Permutation_app. now constructor.
  - cbn. repeat split; auto. constructor.
  - intros k x y m m' H1 [A [B [C [C' [D [E F]]]]]] H2 [A2 [A2' [B2 [C2 [D2 [E2 [E2' F2]]]]]]]. cbn [map fst snd forallb flat_map].
    rewrite A, B, B2, C2. rewrite !zlen_cons, D2. repeat split; auto.
    + apply nodupb_perm. now apply perm_skip.
    + cbn [app]. apply perm_skip. now apply Permutation_app.
    + cbn [app]. apply perm_skip. now apply Permutation_app.
    + now constructor.
  - intros m m' m'' HP H [A [A' [B [C [D [E [E' F]]]]]]].
    rewrite <- A, <- B, <- C, <- D. repeat split.
    + apply nodupb_perm. now apply Permutation_map.
    + eapply perm_trans; [|exact A']. now apply Permutation_map.
    + now apply forallb_perm.
    + now apply forallb_perm.
    + now apply zlen_perm.
    + eapply perm_trans; [|exact E]. now apply flat_map_perm.
    + eapply perm_trans; [|exact E']. now apply flat_map_perm.
    + eapply rp_perm; [|exact F]. now apply Permutation_map.
Qed.

Theorem reorder_returns v x y : reorder x y -> returns v x -> returns v y /\ reorder (rcv x) (rcv y).
Proof.
  intros H [H1 [H2 H3]]. destruct (proj1 (reorder_ok v) x y H) as [A [B [C [C' [D [E F]]]]]].
  unfold returns. rewrite <- A, <- B, <- (forallb_perm _ _ _ C). auto.
Qed.

Lemma map_get_In {A} (m : list (bytes * A)) k x : NoDup (map fst m) -> (map_get m k = Some x <-> In (k, x) m).
Proof.
  induction m as [|[k' x'] m IH]; cbn [map fst map_get In]; intros Hnd; [split; [discriminate|easy]|].
  inversion Hnd as [|? ? Hni Hnd']; subst. destruct (bytes_eqb k k') eqn:E.
  - apply bytes_eqb_eq in E. subst k'. split; intros H.
    + injection H as ->. now left.
    + destruct H as [H|H]; [congruence|]. exfalso. apply Hni. apply in_map_iff. now exists (k, x).
  - apply bytes_eqb_neq in E. rewrite IH by assumption. split; intros H; [now right|].
    destruct H as [H|H]; [congruence|assumption].
Qed.

Lemma map_get_perm {A} (m m' : list (bytes * A)) k : NoDup (map fst m) -> Permutation m m' ->
  map_get m k = map_get m' k.
Proof.
  intros Hnd HP. assert (Hnd' : NoDup (map fst m')).
  { eapply Permutation_NoDup; [|exact Hnd]. now apply Permutation_map. }
  destruct (map_get m k) eqn:E.
  - apply map_get_In in E; [|assumption]. symmetry. apply map_get_In; [assumption|].
    eapply Permutation_in; eauto.
  - destruct (map_get m' k) eqn:E'; [|reflexivity]. apply map_get_In in E'; [|assumption].
    apply Permutation_sym in HP. eapply Permutation_in in E'; [|exact HP].
    apply map_get_In in E'; [congruence|assumption].
Qed.

(** ** float32 *)

Lemma num64_parts s E M : s = 0 \/ s = 1 -> 0 <= E < 2048 -> 0 <= M < 2 ^ 52 ->
  num64 (s * 2 ^ 63 + E * 2 ^ 52 + M)
  = let neg := (s =? 1) in
    if E =? 2047 then (if M =? 0 then FInf neg else FNaN)
    else if E =? 0 then FFin neg M
    else FFin neg ((2 ^ 52 + M) * 2 ^ (E - 1)).
Proof.
  intros Hs HE HM. unfold num64.
  assert (H1 : (s * 2 ^ 63 + E * 2 ^ 52 + M) mod 2 ^ 52 = M).
  { change (2 ^ 63) with (2048 * 2 ^ 52). change (2 ^ 52) with 4503599627370496 in *. lia. }
  assert (H2 : ((s * 2 ^ 63 + E * 2 ^ 52 + M) / 2 ^ 52) mod 2048 = E).
  { change (2 ^ 63) with (2048 * 2 ^ 52). change (2 ^ 52) with 4503599627370496 in *. lia. }
  assert (H3 : (2 ^ 63 <=? s * 2 ^ 63 + E * 2 ^ 52 + M) = (s =? 1)).
  { change (2 ^ 63) with 9223372036854775808. change (2 ^ 52) with 4503599627370496 in *. lia. }
  rewrite H1, H2, H3. reflexivity.
Qed.

Theorem widen_exact b : 0 <= b < 2 ^ 32 -> num64 (f32_to_f64 b) = num32 b.
Proof.
  intros Hb. unfold f32_to_f64, num32.
  set (m := b mod 2 ^ 23). set (e := (b / 2 ^ 23) mod 256). set (s := b / 2 ^ 31).
  assert (Hm : 0 <= m < 8388608) by (unfold m; change (2 ^ 23) with 8388608; lia).
  assert (He : 0 <= e < 256) by (unfold e; lia).
  assert (Hs : s = 0 \/ s = 1).
  { unfold s. change (2 ^ 32) with 4294967296 in Hb. change (2 ^ 31) with 2147483648. lia. }
  assert (Hn : (2 ^ 31 <=? b) = (s =? 1)).
  { unfold s. change (2 ^ 32) with 4294967296 in Hb. change (2 ^ 31) with 2147483648. lia. }
  rewrite Hn. clearbody m e s. clear Hn Hb b.
  destruct (e =? 255) eqn:E255.
  - destruct (m =? 0) eqn:Em.
    + rewrite <- (Z.add_0_r (s * 2 ^ 63 + 2047 * 2 ^ 52)). rewrite num64_parts by (try assumption; lia).
      reflexivity.
    + assert (HL : 0 < Z.lor (m * 2 ^ 29) (2 ^ 51) < 2 ^ 52).
      { assert (m * 2 ^ 29 < 2 ^ 52) by (change (2 ^ 52) with (8388608 * 2 ^ 29); change (2 ^ 29) with 536870912; lia).
        assert (0 <= m * 2 ^ 29) by (change (2 ^ 29) with 536870912; lia).
        split.
        - assert (Z.lor (m * 2 ^ 29) (2 ^ 51) <> 0) by (intros E0; apply Z.lor_eq_0_iff in E0; lia).
          assert (0 <= Z.lor (m * 2 ^ 29) (2 ^ 51)) by (apply Z.lor_nonneg; lia). lia.
        - destruct (Z.eq_dec (Z.lor (m * 2 ^ 29) (2 ^ 51)) 0) as [->|]; [lia|].
          apply Z.log2_lt_pow2; [assert (0 <= Z.lor (m * 2 ^ 29) (2 ^ 51)) by (apply Z.lor_nonneg; lia); lia|].
          rewrite Z.log2_lor by lia. apply Z.max_lub_lt.
          + destruct (Z.eq_dec (m * 2 ^ 29) 0) as [->|]; [cbn; lia|]. apply Z.log2_lt_pow2; lia.
          + cbn. lia. }
      rewrite num64_parts; [|assumption|lia|lia]. cbv zeta. change (2047 =? 2047) with true. cbv iota.
      destruct (Z.lor (m * 2 ^ 29) (2 ^ 51) =? 0) eqn:E0; [lia|reflexivity].
  - destruct (e =? 0) eqn:E0.
    + destruct (m =? 0) eqn:Em.
      * replace (s * 2 ^ 63) with (s * 2 ^ 63 + 0 * 2 ^ 52 + 0) by lia.
        rewrite num64_parts by (try assumption; lia). cbv zeta. assert (m = 0) by lia. subst. reflexivity.
      * set (k := Z.log2 m).
        assert (Hk : 2 ^ k <= m < 2 ^ (k + 1)) by (apply Z.log2_spec; lia).
        assert (Hk0 : 0 <= k) by apply Z.log2_nonneg.
        assert (Hk1 : k < 23) by (apply Z.log2_lt_pow2; lia).
        assert (HM : 0 <= (m - 2 ^ k) * 2 ^ (52 - k) < 2 ^ 52).
        { assert (0 < 2 ^ (52 - k)) by (apply Z.pow_pos_nonneg; lia). split; [nia|].
          replace (2 ^ 52) with (2 ^ k * 2 ^ (52 - k)) by (rewrite <- Z.pow_add_r by lia; f_equal; lia).
          rewrite Z.pow_add_r in Hk by lia. nia. }
        rewrite num64_parts; [|assumption|lia|exact HM]. cbv zeta.
        destruct (k - 149 + 1023 =? 2047) eqn:X1; [lia|].
        destruct (k - 149 + 1023 =? 0) eqn:X2; [lia|]. f_equal.
        replace (2 ^ 52) with (2 ^ k * 2 ^ (52 - k)) by (rewrite <- Z.pow_add_r by lia; f_equal; lia).
        replace (2 ^ k * 2 ^ (52 - k) + (m - 2 ^ k) * 2 ^ (52 - k)) with (m * 2 ^ (52 - k)) by ring.
        rewrite <- Z.mul_assoc, <- Z.pow_add_r by lia. f_equal. f_equal. lia.
    + rewrite num64_parts; [|assumption|lia|].
      2:{ change (2 ^ 52) with (8388608 * 2 ^ 29). change (2 ^ 29) with 536870912. lia. }
      cbv zeta. destruct (e - 127 + 1023 =? 2047) eqn:X1; [lia|].
      destruct (e - 127 + 1023 =? 0) eqn:X2; [lia|]. f_equal.
      replace (2 ^ 52 + m * 2 ^ 29) with ((2 ^ 23 + m) * 2 ^ 29) by (change (2 ^ 52) with (2 ^ 23 * 2 ^ 29); ring).
      rewrite <- Z.mul_assoc, <- Z.pow_add_r by lia. f_equal. f_equal. lia.
Qed.
