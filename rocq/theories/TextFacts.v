(** Facts about the texts of errors and of traced bytes. *)
From Coq Require Import String ZArith List Bool Lia ZifyBool.
From Verif Require Import Bytes GoVal GoErr Messages Errors Log SpecClient Texts SpecTexts BytesFacts MiscFacts.
Import ListNotations.
Open Scope Z_scope.

(** ** Errors *)
Lemma chain_is_error e ms e' : chain e ms e' -> is_error e = true -> is_error e' = true.
Proof. intros H He. now destruct H. Qed.
Lemma level_chain W e ms e' : chain e ms e' -> is_error e = true ->
  forall n, error_level W n e' = outline n (map (w_wrap W) ms) ++ error_level W (n + length ms) e.
Proof.
  intros H He. induction H as [|ms e' m H IH]; intros n; [cbn; f_equal; lia|].
  unfold wrap. cbn [error_level e_stack e_msg map outline length]. rewrite (chain_is_error e ms e' H He), IH.
  replace (n + S (length ms))%nat with (S n + length ms)%nat by lia.
  rewrite <- !app_assoc. cbn [app]. reflexivity.
Qed.
Lemma text_of_own W e ms e' : chain e ms e' -> inner e = Some None ->
  error_text W e' = outline 0 (map (w_wrap W) ms) ++ repeat x09 (length ms) ++ e_msg W e ++ trailer (w_stack W e).
Proof.
  intros H He. assert (I : is_error e = true) by (unfold is_error; now rewrite He).
  unfold error_text. rewrite (chain_is_error e ms e' H I), (level_chain W e ms e' H I). f_equal. cbn [plus].
  destruct e as [t|[i|] m|i t| | | | |n|md|t]; try discriminate He; cbn [error_level e_stack e_msg]; destruct (w_stack W _); cbn [trailer]; rewrite ?app_nil_r, <- ?app_assoc; reflexivity.
Qed.
Lemma text_of_foreign W e m ms e' : is_error e = false -> chain (wrap (Some e) m) ms e' ->
  error_text W e' = outline 0 (map (w_wrap W) (ms ++ [m])) ++ str "Internal Error(" ++ w_type W e ++ str "):" ++ w_other W e ++ trailer (w_stack W (wrap (Some e) m)).
Proof.
  intros He H. unfold error_text. rewrite (chain_is_error _ ms e' H eq_refl), (level_chain W _ ms e' H eq_refl).
  cbn [plus]. unfold wrap. cbn [error_level e_stack e_msg]. rewrite He, map_app.
  assert (O : forall l n x, outline n (l ++ [x]) = outline n l ++ repeat x09 (n + length l) ++ x ++ [x0a]).
  { induction l as [|y l IH]; intros n x; cbn [app outline length]; [rewrite Nat.add_0_r; reflexivity|]. rewrite IH.
    replace (n + S (length l))%nat with (S n + length l)%nat by lia. now rewrite <- !app_assoc. }
  cbn [map]. rewrite O, map_length. cbn [plus]. destruct (w_stack W _); cbn [trailer]; rewrite ?app_nil_r, <- !app_assoc; cbn [app]; rewrite <- ?app_assoc; reflexivity.
Qed.
Lemma in_order_later m t a s : in_order (m :: t) s -> in_order (m :: t) (a ++ s).
Proof. inversion 1; subst. rewrite app_assoc. now constructor. Qed.
Lemma outline_order n ms m t s : in_order (m :: t) s -> in_order (ms ++ m :: t) (outline n ms ++ s).
Proof.
  intros H. revert n. induction ms as [|x ms IH]; intros n; [exact H|]. cbn [app outline].
  replace ((repeat x09 n ++ x ++ x0a :: outline (S n) ms) ++ s) with (repeat x09 n ++ x ++ [x0a] ++ outline (S n) ms ++ s) by (rewrite <- !app_assoc; reflexivity).
  constructor. specialize (IH (S n)). destruct (ms ++ m :: t) eqn:E; [now destruct ms|]. now apply in_order_later.
Qed.
Lemma all_told W e ms e' : chain e ms e' -> inner e = Some None -> in_order (map (w_wrap W) ms ++ [e_msg W e]) (error_text W e').
Proof. intros H He. rewrite (text_of_own W e ms e' H He). apply outline_order. constructor. constructor. Qed.
Lemma all_told_foreign W e m ms e' : is_error e = false -> chain (wrap (Some e) m) ms e' ->
  in_order (map (w_wrap W) (ms ++ [m]) ++ [w_type W e; w_other W e]) (error_text W e').
Proof. intros He H. rewrite (text_of_foreign W e m ms e' He H). apply outline_order. constructor. constructor. constructor. Qed.

(** ** Traced bytes *)
Lemma hex_digit_value n : 0 <= n < 16 -> hex_value (hex_digit n) n.
Proof.
  intros H. unfold hex_digit. destruct (Z.ltb_spec n 10).
  - replace n with (bz (zb (48 + n)) - 48) at 2 by (rewrite bz_zb; rewrite Z.mod_small; lia). constructor.
    unfold digit. rewrite bz_zb, Z.mod_small; lia.
  - replace n with (bz (zb (87 + n)) - 87) at 2 by (rewrite bz_zb; rewrite Z.mod_small; lia). constructor.
    rewrite bz_zb, Z.mod_small; lia.
Qed.
Lemma hex_byte_number b : hex_number (hex_byte b) (bz b).
Proof.
  unfold hex_byte. pose proof (bz_range b) as R. destruct (Z.ltb_spec (bz b) 16).
  - constructor. apply hex_digit_value. lia.
  - replace (bz b) with (16 * (bz b / 16) + bz b mod 16) at 3 by (pose proof (Z.div_mod (bz b) 16); lia).
    apply (hex_next [hex_digit (bz b / 16)]); [constructor|]; apply hex_digit_value; [split; [apply Z.div_pos|apply Z.div_lt_upper_bound]; lia|apply Z.mod_pos_bound; lia].
Qed.
Lemma gap_blanks i : blanks (gap i).
Proof. unfold gap. repeat match goal with |- context [if ?c then _ else _] => destruct c end; (split; [discriminate|repeat constructor; cbn; tauto]). Qed.
Lemma hex_loop_list b : forall i, hex_list (map bz b) (hex_loop i b).
Proof. induction b as [|x b IH]; intros i; [constructor|]. cbn [map hex_loop]. constructor; [apply hex_byte_number|apply gap_blanks|apply IH]. Qed.

(** Counting numbers: [inside] says whether a number has begun. *)
Definition hexy (b : byte) : bool := ((48 <=? bz b) && (bz b <=? 57)) || ((97 <=? bz b) && (bz b <=? 102)) || ((65 <=? bz b) && (bz b <=? 70)).
Fixpoint figures (inside : bool) (s : bytes) : nat :=
  match s with
  | [] => 0
  | b :: s' => if hexy b then (if inside then 0 else 1) + figures true s' else figures false s'
  end.
Lemma figures_app a x b : hexy x = false -> forall inside, figures inside (a ++ x :: b) = (figures inside a + figures false b)%nat.
Proof. intros Hx. induction a as [|y a IH]; intros inside; cbn [app figures]; [now rewrite Hx|]. destruct (hexy y); rewrite IH; lia. Qed.
Lemma hex_value_hexy x n : hex_value x n -> hexy x = true.
Proof. unfold hexy. intros [b H|b H|b H]; unfold digit in *; lia. Qed.
Lemma blank_hexy x : In x [x20; x09; x0a] -> hexy x = false.
Proof. cbn. intros [<-|[<-|[<-|[]]]]; reflexivity. Qed.
Lemma blanks_figures w t : Forall (fun b => In b [x20; x09; x0a]) w -> figures false (w ++ t) = figures false t.
Proof. induction 1 as [|x w H _ IH]; [reflexivity|]. cbn [app figures]. now rewrite (blank_hexy x H). Qed.
Lemma inside_figures s : Forall (fun b => hexy b = true) s -> figures true s = 0%nat.
Proof. induction 1 as [|x w H _ IH]; [reflexivity|]. cbn [figures]. now rewrite H, IH. Qed.
Lemma number_hexy s n : hex_number s n -> Forall (fun b => hexy b = true) s /\ s <> [].
Proof.
  induction 1 as [x n H|s m x n H [IH _] V]; [split; [constructor; [now apply (hex_value_hexy x n)|constructor]|discriminate]|].
  split; [apply Forall_app; split; [exact IH|constructor; [now apply (hex_value_hexy x n)|constructor]]|now destruct s].
Qed.
Lemma list_figures l s : hex_list l s -> forall t, figures false (s ++ x0a :: t) = (length l + figures false t)%nat.
Proof.
  induction 1 as [|n s w l t H [Hw B] _ IH]; intros u; [reflexivity|]. cbn [length].
  destruct (number_hexy s n H) as [F N]. destruct w as [|x w]; [contradiction|]. inversion B as [|? ? Bx Bw]; subst.
  rewrite <- !app_assoc. cbn [app]. rewrite (figures_app s x _ (blank_hexy x Bx)), (blanks_figures w _ Bw), IH.
  destruct s as [|y s]; [contradiction|]. inversion F as [|? ? Fy Fs]; subst. cbn [figures]. rewrite Fy, (inside_figures s Fs). lia.
Qed.
Lemma print_longer b c : (length b <= length c)%nat -> sprint_byte_hex b = sprint_byte_hex c -> b = c.
Proof.
  unfold sprint_byte_hex. intros L E. injection E as E.
  assert (X : exists l, c = b ++ l).
  { exists (skipn (length b) c). rewrite <- (firstn_skipn (length b) c) at 1. f_equal.
    apply (f_equal (firstn (length b))) in E. rewrite !firstn_app, Nat.sub_diag, firstn_all in E. cbn in E.
    replace (length b - length c)%nat with 0%nat in E by lia. cbn in E. now rewrite !app_nil_r in E. }
  destruct X as [l ->]. rewrite <- app_assoc in E. apply app_inv_head in E.
  destruct l as [|y l]; [now rewrite app_nil_r|]. exfalso.
  apply (f_equal (figures false)) in E. rewrite figures_app in E by reflexivity. cbn [figures] in E.
  change (hexy x0a) with false in E. change (hexy x09) with false in E. cbv iota in E.
  rewrite !(list_figures _ _ (hex_loop_list _ 0)) in E. cbn [figures] in E. rewrite !map_length, app_length in E. cbn [length] in E. lia.
Qed.
Lemma print_injective b c : sprint_byte_hex b = sprint_byte_hex c -> b = c.
Proof. intros E. destruct (Nat.le_ge_cases (length b) (length c)); [now apply print_longer|symmetry; now apply print_longer]. Qed.
Lemma print_numbers b : exists h, sprint_byte_hex b = [x0a] ++ b ++ [x0a; x09] ++ h ++ [x0a] /\ hex_list (map bz b) h.
Proof. exists (hex_loop 0 b). split; [reflexivity|apply hex_loop_list]. Qed.
