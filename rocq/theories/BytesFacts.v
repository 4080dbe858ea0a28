(** Lemmas about bytes, big endian and fixed-width conversions. *)
From Coq Require Import ZArith List Bool Lia ZifyBool.
From Verif Require Import Bytes.
Import ListNotations.
Open Scope Z_scope.
Ltac Zify.zify_post_hook ::= Z.div_mod_to_equations.

Lemma bz_range b : 0 <= bz b < 256.
Proof. unfold bz. pose proof (Byte.to_N_bounded b). lia. Qed.

Lemma bz_zb z : bz (zb z) = z mod 256.
Proof.
  unfold bz, zb.
  assert (H : (Z.to_N (z mod 256) < 256)%N) by lia.
  destruct (Byte.of_N (Z.to_N (z mod 256))) eqn:E.
  - apply Byte.to_of_N in E. rewrite E. lia.
  - apply Byte.of_N_None_iff in E. lia.
Qed.

Lemma zb_bz b : zb (bz b) = b.
Proof.
  unfold zb. rewrite Z.mod_small by apply bz_range. unfold bz.
  rewrite N2Z.id, Byte.of_to_N. reflexivity.
Qed.

Lemma bz_inj a b : bz a = bz b -> a = b.
Proof. intros H. rewrite <- (zb_bz a), <- (zb_bz b). now rewrite H. Qed.

Lemma be_length n z : length (be n z) = n.
Proof. revert z; induction n; intros; cbn; [reflexivity|]. rewrite app_length, IHn. cbn. lia. Qed.

Lemma unbe_snoc l b : unbe (l ++ [b]) = unbe l * 256 + bz b.
Proof. unfold unbe. rewrite fold_left_app. reflexivity. Qed.

Lemma unbe_be n z : unbe (be n z) = z mod 256 ^ Z.of_nat n.
Proof.
  revert z; induction n; intros.
  - cbn. rewrite Z.mod_1_r. reflexivity.
  - cbn [be]. rewrite unbe_snoc, IHn, bz_zb.
    replace (Z.of_nat (S n)) with (1 + Z.of_nat n) by lia.
    rewrite Z.pow_add_r by lia. change (256 ^ 1) with 256.
    set (m := 256 ^ Z.of_nat n). assert (0 < m) by (apply Z.pow_pos_nonneg; lia).
    rewrite Z.rem_mul_r by lia. lia.
Qed.

Lemma unbe_range l : 0 <= unbe l < 256 ^ zlen l.
Proof.
  induction l as [|b l IH] using rev_ind.
  - cbn. lia.
  - rewrite unbe_snoc. unfold zlen in *. rewrite app_length. cbn [length].
    replace (Z.of_nat (length l + 1)) with (Z.of_nat (length l) + 1) by lia.
    rewrite Z.pow_add_r by lia. change (256 ^ 1) with 256.
    pose proof (bz_range b). lia.
Qed.

Lemma be_unbe l : be (length l) (unbe l) = l.
Proof.
  induction l as [|b l IH] using rev_ind.
  - reflexivity.
  - rewrite app_length, Nat.add_comm. cbn [length Nat.add be]. rewrite unbe_snoc.
    pose proof (bz_range b).
    replace ((unbe l * 256 + bz b) / 256) with (unbe l) by lia.
    rewrite IH. f_equal. f_equal. apply bz_inj. rewrite bz_zb. lia.
Qed.

Lemma to_signed_range n z :
  (0 < n)%nat -> - (256 ^ Z.of_nat n / 2) <= to_signed n z < 256 ^ Z.of_nat n / 2.
Proof.
  intros Hn. unfold to_signed.
  replace (Z.of_nat n) with (1 + Z.of_nat (n - 1)) by lia.
  rewrite Z.pow_add_r by lia. change (256 ^ 1) with 256.
  set (m := 256 ^ Z.of_nat (n-1)). assert (0 < m) by (apply Z.pow_pos_nonneg; lia).
  replace (256 * m / 2) with (128 * m) by (replace (256 * m) with (128 * m * 2) by lia; now rewrite Z.div_mul by lia).
  pose proof (Z.mod_pos_bound z (256 * m)).
  destruct (z mod (256 * m) <? 128 * m) eqn:E; lia.
Qed.

Lemma to_signed_small n z :
  (0 < n)%nat -> - (256 ^ Z.of_nat n / 2) <= z < 256 ^ Z.of_nat n / 2 -> to_signed n z = z.
Proof.
  intros Hn. unfold to_signed.
  replace (Z.of_nat n) with (1 + Z.of_nat (n - 1)) by lia.
  rewrite Z.pow_add_r by lia. change (256 ^ 1) with 256.
  set (m := 256 ^ Z.of_nat (n-1)). assert (0 < m) by (apply Z.pow_pos_nonneg; lia).
  replace (256 * m / 2) with (128 * m) by (replace (256 * m) with (128 * m * 2) by lia; now rewrite Z.div_mul by lia).
  intros Hz.
  destruct (Z_lt_le_dec z 0).
  - replace (z mod (256 * m)) with (z + 256 * m).
    + destruct (z + 256 * m <? 128 * m) eqn:E; lia.
    + apply (Z.mod_unique z (256 * m) (-1)); lia.
  - rewrite Z.mod_small by lia. destruct (z <? 128 * m) eqn:E; lia.
Qed.

Lemma to_signed_mod n z : to_signed n (z mod 256 ^ Z.of_nat n) = to_signed n z.
Proof. unfold to_signed. now rewrite Z.mod_mod by (apply Z.pow_nonzero; lia). Qed.

(** Writing the signed conversion writes the low bytes. *)
Lemma be_to_signed n z : be n (to_signed n z) = be n z.
Proof.
  assert (H : forall n a b, a mod 256 ^ Z.of_nat n = b mod 256 ^ Z.of_nat n -> be n a = be n b).
  { clear. intros n a b H.
    rewrite <- (be_unbe (be n a)), <- (be_unbe (be n b)), !be_length, !unbe_be, H. reflexivity. }
  apply H. unfold to_signed.
  set (m := 256 ^ Z.of_nat n). assert (0 < m) by (apply Z.pow_pos_nonneg; lia).
  destruct (z mod m <? m / 2).
  - apply Z.mod_mod; lia.
  - replace (z mod m - m) with (z mod m + (-1) * m) by lia.
    rewrite Z.mod_add by lia. apply Z.mod_mod; lia.
Qed.

Lemma be_mod n z : be n (z mod 256 ^ Z.of_nat n) = be n z.
Proof.
  rewrite <- (be_unbe (be n z)), be_length, unbe_be. reflexivity.
Qed.

Lemma zlen_nonneg {A} (l : list A) : 0 <= zlen l.
Proof. unfold zlen; lia. Qed.

Lemma zlen_app {A} (a b : list A) : zlen (a ++ b) = zlen a + zlen b.
Proof. unfold zlen. rewrite app_length. lia. Qed.

Lemma zlen_map {A B} (f : A -> B) l : zlen (map f l) = zlen l.
Proof. unfold zlen. now rewrite map_length. Qed.

Lemma zlen_cons {A} (a : A) l : zlen (a :: l) = 1 + zlen l.
Proof. unfold zlen. cbn [length]. lia. Qed.

Lemma zlen_be n z : zlen (be n z) = Z.of_nat n.
Proof. unfold zlen. now rewrite be_length. Qed.

Lemma bytes_eqb_eq a b : bytes_eqb a b = true <-> a = b.
Proof.
  unfold bytes_eqb. revert b. induction a as [|x a IH]; intros [|y b]; split; intros H; try easy.
  - apply andb_prop in H. destruct H as [H1 H2].
    apply Byte.byte_dec_bl in H1. apply IH in H2. congruence.
  - injection H as -> ->. apply andb_true_intro. split.
    + apply Byte.byte_dec_lb. reflexivity.
    + now apply IH.
Qed.

Lemma bytes_eqb_refl a : bytes_eqb a a = true.
Proof. now apply bytes_eqb_eq. Qed.

Lemma bytes_eqb_neq a b : bytes_eqb a b = false <-> a <> b.
Proof.
  split; intros H.
  - intros ->. now rewrite bytes_eqb_refl in H.
  - destruct (bytes_eqb a b) eqn:E; [|reflexivity]. apply bytes_eqb_eq in E. congruence.
Qed.

Lemma bytes_eqb_sym a b : bytes_eqb a b = bytes_eqb b a.
Proof.
  destruct (bytes_eqb a b) eqn:E.
  - apply bytes_eqb_eq in E. subst. now rewrite bytes_eqb_refl.
  - symmetry. apply bytes_eqb_neq. apply bytes_eqb_neq in E. congruence.
Qed.

Lemma firstn_app_exact {A} (a b : list A) : firstn (length a) (a ++ b) = a.
Proof. now rewrite firstn_app, Nat.sub_diag, firstn_all, app_nil_r. Qed.

Lemma skipn_app_exact {A} (a b : list A) : skipn (length a) (a ++ b) = b.
Proof. now rewrite skipn_app, Nat.sub_diag, skipn_all. Qed.

Lemma bytes_dec (a b : bytes) : {a = b} + {a <> b}.
Proof.
  destruct (bytes_eqb a b) eqn:E; [left; now apply bytes_eqb_eq | right; now apply bytes_eqb_neq].
Defined.
