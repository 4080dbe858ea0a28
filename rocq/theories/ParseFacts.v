(** The reference reader reads every valid framing and representation. *)
From Coq Require Import ZArith List Bool Lia ZifyBool.
From Verif Require Import Bytes BytesFacts GoVal SpecPack SpecParse PackFacts FrameFacts.
Import ListNotations.
Open Scope Z_scope.
Ltac Zify.zify_post_hook ::= Z.div_mod_to_equations.

Lemma take_app s rest : take (zlen s) (s ++ rest) = Some (s, rest).
Proof.
  unfold take. pose proof (zlen_nonneg s). pose proof (zlen_nonneg rest). rewrite zlen_app.
  replace ((zlen s <? 0) || (zlen s + zlen rest <? zlen s)) with false by lia.
  unfold zlen. rewrite Nat2Z.id. now rewrite firstn_app_exact, skipn_app_exact.
Qed.
Lemma number_app n s z rest : unsigned_be n z s -> number (Z.of_nat n) (s ++ rest) = Some (z, rest).
Proof.
  intros [Hl Hv]. unfold number. replace (Z.of_nat n) with (zlen s) by (unfold zlen; now rewrite Hl).
  now rewrite take_app, Hv.
Qed.
Lemma signed_number_app n s z rest : (0 < n)%nat -> signed_be n z s ->
  signed_number (Z.of_nat n) (s ++ rest) = Some (z, rest).
Proof.
  intros Hn (Hl & Hr & Hv). unfold signed_number.
  rewrite (number_app n s (be_value s)) by now split. rewrite Hv.
  assert (E : 2 ^ (8 * Z.of_nat n) = 2 * 2 ^ (8 * Z.of_nat n - 1)).
  { rewrite <- Z.pow_succ_r by lia. f_equal. lia. }
  rewrite E in *. set (h := 2 ^ (8 * Z.of_nat n - 1)) in *. f_equal. f_equal.
  destruct (z <? 0) eqn:Ez; destruct (_ <? h) eqn:Eh; lia.
Qed.

Scheme packs_mut := Minimality for packs Sort Prop
  with packs_seq_mut := Minimality for packs_seq Sort Prop
  with packs_entries_mut := Minimality for packs_entries Sort Prop.
Combined Scheme packs_all from packs_mut, packs_seq_mut, packs_entries_mut.

Lemma header_len L t m8 m16 m32 n h : header L t m8 m16 m32 n h -> (1 <= length h)%nat.
Proof. intros []; cbn; lia. Qed.

Lemma packs_size L :
  (forall p bs, packs L p bs -> (1 <= length bs)%nat)
  /\ (forall l bs, packs_seq L l bs -> (length l <= length bs)%nat)
  /\ (forall m bs, packs_entries L m bs -> (length m <= length bs)%nat).
Proof.
  apply packs_all; intros; cbn [length]; rewrite ?app_length; cbn [length];
    try match goal with H : _ L _ ?h |- context [length ?h] => apply header_len in H end; try lia.
Qed.

Section Dispatch.
  Variable item : bytes -> option (pv * bytes).
  Lemma tiny t n m r (f : Z -> bytes -> option (pv * bytes)) :
    Z.of_N (Byte.to_N m) = t + n -> 0 <= n <= 15 -> (t = 128 \/ t = 144 \/ t = 160 \/ t = 176) ->
    (f = p_string /\ t = 128) \/ (f = p_list item /\ t = 144) \/ (f = p_map item /\ t = 160) \/ (f = p_struct item /\ t = 176) ->
    item_body item (m :: r) = f n r.
  Proof.
    intros E Hn Ht Hf. unfold item_body. change (byte_value m) with (Z.of_N (Byte.to_N m)). rewrite E.
    destruct Hf as [[-> ->]|[[-> ->]|[[-> ->]|[-> ->]]]].
    - replace (128 + n <? 128) with false by lia. replace (128 + n <? 144) with true by lia.
      replace (128 + n - 128) with n by lia. reflexivity.
    - replace (144 + n <? 128) with false by lia. replace (144 + n <? 144) with false by lia.
      replace (144 + n <? 160) with true by lia. replace (144 + n - 144) with n by lia. reflexivity.
    - replace (160 + n <? 128) with false by lia. replace (160 + n <? 144) with false by lia.
      replace (160 + n <? 160) with false by lia. replace (160 + n <? 176) with true by lia.
      replace (160 + n - 160) with n by lia. reflexivity.
    - replace (176 + n <? 128) with false by lia. replace (176 + n <? 144) with false by lia.
      replace (176 + n <? 160) with false by lia. replace (176 + n <? 176) with false by lia.
      replace (176 + n <? 192) with true by lia. replace (176 + n - 176) with n by lia. reflexivity.
  Qed.
  Lemma sized_string L n h r : string_header L n h -> item_body item (h ++ r) = p_string n r.
  Proof.
    intros [b Hn E|s _ H|s _ H|s m E _ H]; cbn [app].
    - apply (tiny 128); auto.
    - change (item_body item (xd0 :: s ++ r)) with (with_size 1 p_string (s ++ r)). unfold with_size.
      now rewrite (number_app 1 s n).
    - change (item_body item (xd1 :: s ++ r)) with (with_size 2 p_string (s ++ r)). unfold with_size.
      now rewrite (number_app 2 s n).
    - injection E as <-. change (item_body item (xd2 :: s ++ r)) with (with_size 4 p_string (s ++ r)). unfold with_size.
      now rewrite (number_app 4 s n).
  Qed.
  Lemma sized_list L n h r : list_header L n h -> item_body item (h ++ r) = p_list item n r.
  Proof.
    intros [b Hn E|s _ H|s _ H|s m E _ H]; cbn [app].
    - apply (tiny 144); auto.
    - change (item_body item (xd4 :: s ++ r)) with (with_size 1 (p_list item) (s ++ r)). unfold with_size.
      now rewrite (number_app 1 s n).
    - change (item_body item (xd5 :: s ++ r)) with (with_size 2 (p_list item) (s ++ r)). unfold with_size.
      now rewrite (number_app 2 s n).
    - injection E as <-. change (item_body item (xd6 :: s ++ r)) with (with_size 4 (p_list item) (s ++ r)). unfold with_size.
      now rewrite (number_app 4 s n).
  Qed.
  Lemma sized_map L n h r : map_header L n h -> item_body item (h ++ r) = p_map item n r.
  Proof.
    intros [b Hn E|s _ H|s _ H|s m E _ H]; cbn [app].
    - apply (tiny 160); auto.
    - change (item_body item (xd8 :: s ++ r)) with (with_size 1 (p_map item) (s ++ r)). unfold with_size.
      now rewrite (number_app 1 s n).
    - change (item_body item (xd9 :: s ++ r)) with (with_size 2 (p_map item) (s ++ r)). unfold with_size.
      now rewrite (number_app 2 s n).
    - injection E as <-. change (item_body item (xda :: s ++ r)) with (with_size 4 (p_map item) (s ++ r)). unfold with_size.
      now rewrite (number_app 4 s n).
  Qed.
  Lemma sized_struct L n h r : struct_header L n h -> item_body item (h ++ r) = p_struct item n r.
  Proof.
    intros [b Hn E|s _ H|s _ H|s m E _ H]; cbn [app].
    - apply (tiny 176); auto 10.
    - change (item_body item (xdc :: s ++ r)) with (with_size 1 (p_struct item) (s ++ r)). unfold with_size.
      now rewrite (number_app 1 s n).
    - change (item_body item (xdd :: s ++ r)) with (with_size 2 (p_struct item) (s ++ r)). unfold with_size.
      now rewrite (number_app 2 s n).
    - discriminate.
  Qed.
End Dispatch.

Lemma item_packs L :
  (forall p bs, packs L p bs -> forall f rest, (length bs <= f)%nat -> item_fuel f (bs ++ rest) = Some (p, rest))
  /\ (forall l bs, packs_seq L l bs -> forall f rest, (length bs <= f)%nat ->
      several (item_fuel f) (length l) (bs ++ rest) = Some (l, rest))
  /\ (forall m bs, packs_entries L m bs -> forall f rest, (length bs <= f)%nat ->
      entries (item_fuel f) (length m) (bs ++ rest) = Some (m, rest)).
Proof.
  apply packs_all.
  - intros [|f] rest Hf; [cbn in Hf; lia|reflexivity].
  - intros [|f] rest Hf; [cbn in Hf; lia|reflexivity].
  - intros [|f] rest Hf; [cbn in Hf; lia|reflexivity].
  - intros z b Hz (_ & _ & Hv) [|f] rest Hf; [cbn in Hf; lia|]. cbn [app item_fuel]. unfold item_body.
    cbn [be_value length] in Hv. change (256 ^ Z.of_nat 0) with 1 in Hv.
    change (Z.of_N (Byte.to_N b)) with (byte_value b) in Hv.
    change (2 ^ (8 * Z.of_nat 1)) with 256 in Hv. cbv zeta.
    destruct (z <? 0) eqn:E.
    + replace (byte_value b <? 128) with false by lia. replace (byte_value b <? 144) with false by lia.
      replace (byte_value b <? 160) with false by lia. replace (byte_value b <? 176) with false by lia.
      replace (byte_value b <? 192) with false by lia. replace (240 <=? byte_value b) with true by lia.
      do 3 f_equal. lia.
    + replace (byte_value b <? 128) with true by lia. do 3 f_equal. lia.
  - intros z s H [|f] rest Hf; [cbn in Hf; lia|]. cbn [app item_fuel].
    change (item_body (item_fuel f) (xc8 :: s ++ rest)) with (p_int 1 (s ++ rest)). unfold p_int.
    now rewrite (signed_number_app 1 s z) by (try lia; assumption).
  - intros z s H [|f] rest Hf; [cbn in Hf; lia|]. cbn [app item_fuel].
    change (item_body (item_fuel f) (xc9 :: s ++ rest)) with (p_int 2 (s ++ rest)). unfold p_int.
    now rewrite (signed_number_app 2 s z) by (try lia; assumption).
  - intros z s H [|f] rest Hf; [cbn in Hf; lia|]. cbn [app item_fuel].
    change (item_body (item_fuel f) (xca :: s ++ rest)) with (p_int 4 (s ++ rest)). unfold p_int.
    now rewrite (signed_number_app 4 s z) by (try lia; assumption).
  - intros z s H [|f] rest Hf; [cbn in Hf; lia|]. cbn [app item_fuel].
    change (item_body (item_fuel f) (xcb :: s ++ rest)) with (p_int 8 (s ++ rest)). unfold p_int.
    now rewrite (signed_number_app 8 s z) by (try lia; assumption).
  - intros z s H [|f] rest Hf; [cbn in Hf; lia|]. cbn [app item_fuel].
    change (item_body (item_fuel f) (xc1 :: s ++ rest)) with (p_float (s ++ rest)). unfold p_float.
    now rewrite (number_app 8 s z).
  - intros s h H [|f] rest Hf; [apply header_len in H; rewrite app_length in Hf; lia|]. cbn [item_fuel].
    rewrite <- app_assoc, (sized_string _ L (zlen s) h _ H). unfold p_string. now rewrite take_app.
  - intros l h bs H Hs IH [|f] rest Hf; pose proof (header_len _ _ _ _ _ _ _ H); rewrite app_length in Hf; [lia|].
    cbn [item_fuel]. rewrite <- app_assoc, (sized_list _ L (zlen l) h _ H). unfold p_list.
    apply packs_size in Hs. replace (zlen (bs ++ rest) <? zlen l) with false.
    + unfold zlen. rewrite Nat2Z.id, IH by lia. reflexivity.
    + rewrite zlen_app. unfold zlen. lia.
  - intros l h bs H Hs IH [|f] rest Hf; pose proof (header_len _ _ _ _ _ _ _ H); rewrite app_length in Hf; [lia|].
    cbn [item_fuel]. rewrite <- app_assoc, (sized_map _ L (zlen l) h _ H). unfold p_map.
    apply packs_size in Hs. replace (zlen (bs ++ rest) <? zlen l) with false.
    + unfold zlen. rewrite Nat2Z.id, IH by lia. reflexivity.
    + rewrite zlen_app. unfold zlen. lia.
  - intros sig l h b bs H Eb Hs IH [|f] rest Hf; pose proof (header_len _ _ _ _ _ _ _ H); rewrite app_length in Hf; cbn [length] in Hf; [lia|].
    cbn [item_fuel]. rewrite <- app_assoc, (sized_struct _ L (zlen l) h _ H). cbn [app]. unfold p_struct.
    apply packs_size in Hs. replace (zlen (bs ++ rest) <? zlen l) with false.
    + unfold zlen. rewrite Nat2Z.id, IH by lia. now rewrite <- Eb.
    + rewrite zlen_app. unfold zlen. lia.
  - reflexivity.
  - intros p l b bs Hp IHp Hs IHs f rest Hf. rewrite app_length in Hf. cbn [length several].
    rewrite <- app_assoc, IHp, IHs by lia. reflexivity.
  - reflexivity.
  - intros k p m kb b bs Hk IHk Hp IHp Hs IHs f rest Hf. rewrite !app_length in Hf. cbn [length entries].
    rewrite <- !app_assoc, IHk, IHp, IHs by lia. reflexivity.
Qed.

Lemma parse_packs L p bs rest : packs L p bs -> parse_item (bs ++ rest) = Some (p, rest).
Proof. intro H. apply (proj1 (item_packs L)); [exact H|]. rewrite app_length. lia. Qed.

(** A byte sequence represents at most one item, even as a prefix of a longer one. *)
Lemma packs_unambiguous L L' p p' b b' r r' : packs L p b -> packs L' p' b' -> b ++ r = b' ++ r' -> p = p' /\ b = b'.
Proof.
  intros H H' E. pose proof (parse_packs L p b r H) as P. rewrite E, (parse_packs L' p' b' r' H') in P.
  injection P as E1 E2. subst. split; [reflexivity|]. now apply app_inv_tail in E.
Qed.

Lemma frame_frames p w : frames p w -> forall f rest, (length w <= f)%nat -> frame_fuel f (w ++ rest) = Some (p, rest).
Proof.
  induction 1 as [|c h p w Hc Hl Hh Hf IH]; intros [|f] rest Hle.
  - cbn in Hle; lia.
  - cbn [frame_fuel]. change 2 with (Z.of_nat 2).
    now rewrite (number_app 2 [x00; x00] 0) by (split; reflexivity).
  - destruct Hh as [Hh _]. rewrite !app_length in Hle. lia.
  - cbn [frame_fuel]. rewrite <- !app_assoc. change 2 with (Z.of_nat 2). rewrite (number_app 2 h (zlen c)) by exact Hh.
    destruct (zlen c =? 0) eqn:E; [destruct c; [now elim Hc|rewrite zlen_cons in E; pose proof (zlen_nonneg c); lia]|].
    rewrite take_app, IH; [reflexivity|]. destruct Hh as [Hh _]. rewrite !app_length in Hle. lia.
Qed.
Lemma parse_frames p w rest : frames p w -> parse_frame (w ++ rest) = Some (p, rest).
Proof. intro H. apply frame_frames; [exact H|]. rewrite app_length. lia. Qed.

Lemma parse_message_ok L p body w rest : packs L p body -> frames body w ->
  parse_message (w ++ rest) = Some (Some p, rest).
Proof.
  intros Hp Hf. unfold parse_message. rewrite (parse_frames _ _ _ Hf).
  pose proof (parse_packs L p body [] Hp) as H. rewrite app_nil_r in H. now rewrite H.
Qed.
