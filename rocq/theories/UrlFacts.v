(** Facts about reading URLs. *)
From Coq Require Import String ZArith List Bool Lia ZifyBool.
From Verif Require Import Bytes GoVal GoErr Messages GoStr Url BytesFacts SpecClient.
Import ListNotations.
Open Scope Z_scope.

Lemma byte_eqb_eq a b : Byte.eqb a b = true <-> a = b.
Proof. split; [apply Byte.byte_dec_bl|apply Byte.byte_dec_lb]. Qed.
Lemma byte_eqb_neq a b : Byte.eqb a b = false <-> a <> b.
Proof. rewrite <- not_true_iff_false, byte_eqb_eq. reflexivity. Qed.
Lemma one_of_in l b : one_of l b = true <-> In b l.
Proof. unfold one_of. rewrite existsb_exists. split; [intros (x & H & E); apply byte_eqb_eq in E; now subst|intros H; exists b; split; [exact H|now apply byte_eqb_eq]]. Qed.

(** ** Cutting *)
Lemma cut_none c s : ~ In c s -> cut c s = None.
Proof.
  induction s as [|x s IH]; [reflexivity|]. intros H. cbn. destruct (Byte.eqb x c) eqn:E; [apply byte_eqb_eq in E; subst; now destruct H; left|].
  rewrite IH; [reflexivity|]. intros X. apply H. now right.
Qed.
Lemma cut_app c a b : ~ In c a -> cut c (a ++ c :: b) = Some (a, b).
Proof.
  induction a as [|x a IH]; intros H; cbn.
  - now rewrite (proj2 (byte_eqb_eq c c) eq_refl).
  - destruct (Byte.eqb x c) eqn:E; [apply byte_eqb_eq in E; subst; now destruct H; left|].
    rewrite IH; [reflexivity|]. intros X. apply H. now right.
Qed.
Lemma cut_some c s a b : cut c s = Some (a, b) -> s = a ++ c :: b /\ ~ In c a.
Proof.
  revert a b. induction s as [|x s IH]; intros a b; cbn; [discriminate|]. destruct (Byte.eqb x c) eqn:E.
  - apply byte_eqb_eq in E. subst. intros [= <- <-]. split; [reflexivity|easy].
  - apply byte_eqb_neq in E. destruct (cut c s) as [[a' b']|]; [|discriminate]. intros [= <- <-]. destruct (IH _ _ eq_refl) as [-> H].
    split; [reflexivity|]. intros [X|X]; [now apply E|now apply H].
Qed.
Lemma cut_none_inv c s : cut c s = None -> ~ In c s.
Proof. intros H X. apply in_split in X. destruct X as (a & b & ->).
  induction a as [|x a IH]; cbn in H; [now rewrite (proj2 (byte_eqb_eq c c) eq_refl) in H|].
  destruct (Byte.eqb x c); [discriminate|]. destruct (cut c (a ++ c :: b)) as [[? ?]|]; [discriminate|auto].
Qed.
Lemma cut_last_none c s : ~ In c s -> cut_last c s = None.
Proof.
  induction s as [|x s IH]; [reflexivity|]. intros H. cbn. rewrite IH by (intros X; apply H; now right).
  destruct (Byte.eqb x c) eqn:E; [apply byte_eqb_eq in E; subst; now destruct H; left|reflexivity].
Qed.
Lemma cut_last_app c a b : ~ In c b -> cut_last c (a ++ c :: b) = Some (a, b).
Proof.
  intros H. induction a as [|x a IH]; cbn.
  - rewrite cut_last_none by exact H. now rewrite (proj2 (byte_eqb_eq c c) eq_refl).
  - now rewrite IH.
Qed.
Lemma cut_last_some c s a b : cut_last c s = Some (a, b) -> s = a ++ c :: b /\ ~ In c b.
Proof.
  revert a b. induction s as [|x s IH]; intros a b; cbn; [discriminate|].
  destruct (cut_last c s) as [[a' b']|] eqn:E'.
  - intros [= <- <-]. destruct (IH _ _ eq_refl) as [-> H]. auto.
  - destruct (Byte.eqb x c) eqn:E; [|discriminate]. apply byte_eqb_eq in E. subst. intros [= <- <-]. split; [reflexivity|].
    intros X. apply in_split in X. destruct X as (l1 & l2 & ->).
    clear IH. revert E'. induction l1 as [|y l1 IH]; cbn; [destruct (cut_last c l2) as [[? ?]|]; [discriminate|]; now rewrite (proj2 (byte_eqb_eq c c) eq_refl)|].
    destruct (cut_last c (l1 ++ c :: l2)) as [[? ?]|]; [discriminate|]. now destruct IH.
Qed.
Lemma split_at_none c s : ~ In c s -> split_at c s = (s, []).
Proof. intros H. unfold split_at. now rewrite cut_none. Qed.
Lemma split_at_app c a b : ~ In c a -> split_at c (a ++ c :: b) = (a, b).
Proof. intros H. unfold split_at. now rewrite cut_app. Qed.
(** Either way the first part is the text before the first occurrence. *)
Lemma split_at_prefix c s : exists r, s = fst (split_at c s) ++ r /\ (r = [] \/ exists r', r = c :: r') /\ ~ In c (fst (split_at c s)).
Proof.
  unfold split_at. destruct (cut c s) as [[a b]|] eqn:E; cbn.
  - apply cut_some in E. destruct E as [-> H]. exists (c :: b). eauto.
  - apply cut_none_inv in E. exists []. rewrite app_nil_r. auto.
Qed.
Lemma split_slash_prefix s : exists r, s = fst (split_slash s) ++ r /\ ~ In "/"%byte (fst (split_slash s)).
Proof.
  unfold split_slash. destruct (cut "/" s) as [[a b]|] eqn:E; cbn.
  - apply cut_some in E. destruct E as [-> H]. eauto.
  - apply cut_none_inv in E. exists []. now rewrite app_nil_r.
Qed.

(** ** Decoding *)
Lemma unescape_plain m s : Forall (fun b => b <> "%"%byte /\ byte_allowed m b = true /\ (b = "+"%byte -> m <> MQuery)) s -> unescape m s = Some s.
Proof.
  induction s as [|c s IH]; [reflexivity|]. intros H. inversion H as [|? ? (A & B & C) D]; subst. cbn.
  rewrite (proj2 (byte_eqb_neq c "%") A), B, (IH D). destruct (Byte.eqb c "+") eqn:E; [|reflexivity]. apply byte_eqb_eq in E. destruct m; try reflexivity. now destruct (C E).
Qed.
Lemma unescape_length m n : forall s r, (length s <= n)%nat -> unescape m s = Some r ->
  (length r <= length s)%nat /\ (length r = length s -> ~ In "%"%byte s /\ (m <> MQuery -> r = s)).
Proof.
  induction n as [|n IH]; intros [|c s] r Hn; cbn in Hn; try lia; cbn.
  1,2: intros [= <-]; cbn; split; [lia|auto].
  destruct (Byte.eqb c "%") eqn:E.
  - destruct s as [|a [|b s]]; try discriminate. destruct (_ && _); [|discriminate].
    destruct (unescape m s) as [r'|] eqn:Er; [|discriminate]. intros [= <-]. apply IH in Er; [|cbn in Hn; lia]. cbn. lia.
  - apply byte_eqb_neq in E. destruct (byte_allowed m c); [|discriminate]. destruct (unescape m s) as [r'|] eqn:Er; [|discriminate]. intros [= <-].
    apply IH in Er; [|lia]. destruct Er as [L X]. cbn. split; [lia|]. intros Y. destruct X as [X1 X2]; [lia|]. split.
    + intros [Z|Z]; [now apply E|now apply X1].
    + intros Hm. rewrite X2 by exact Hm. destruct (Byte.eqb c "+"); [|reflexivity]. destruct m; try reflexivity. now destruct Hm.
Qed.

(** ** Characters *)
Definition all_bytes : list byte := map (fun n => zb (Z.of_nat n)) (seq 0 256).
Lemma every_byte (f : byte -> bool) : forallb f all_bytes = true -> forall b, f b = true.
Proof.
  intros H b. rewrite forallb_forall in H. apply H. unfold all_bytes. apply in_map_iff. exists (Z.to_nat (bz b)).
  pose proof (bz_range b). rewrite Z2Nat.id by lia. split; [apply zb_bz|]. apply in_seq. lia.
Qed.
Lemma letter_b b : letter b <-> is_upper b || is_lower b = true.
Proof. unfold letter, is_upper, is_lower. lia. Qed.
Lemma digit_b b : digit b <-> is_digit b = true.
Proof. unfold digit, is_digit. lia. Qed.
Lemma char_b l b : letter b \/ digit b \/ In b l <-> alnum b || one_of l b = true.
Proof. rewrite letter_b, digit_b, <- one_of_in. unfold alnum. rewrite !orb_true_iff. tauto. Qed.
(** A property of all characters of a class, by computation. *)
Lemma class_fact (f g : byte -> bool) : forallb (fun b => implb (f b) (g b)) all_bytes = true -> forall b, f b = true -> g b = true.
Proof. intros H b F. apply (every_byte _) with (b := b) in H. rewrite F in H. exact H. Qed.
Definition is_byte (c b : byte) : bool := Byte.eqb b c.
Lemma avoids (f : byte -> bool) c s : f c = false -> Forall (fun b => f b = true) s -> ~ In c s.
Proof. intros H F X. rewrite Forall_forall in F. specialize (F _ X). congruence. Qed.

Definition host_b (b : byte) : bool := alnum b || one_of (str "-._") b.
Definition user_b (b : byte) : bool := alnum b || one_of (str "-._~!$&'()*+,;=@") b.
Definition password_b (b : byte) : bool := alnum b || one_of (str "-._~!$&'()*+,;=:@") b.
Definition file_b (b : byte) : bool := alnum b || one_of (str "-._~/\: ") b.
Lemma Forall_b (P : byte -> Prop) (f : byte -> bool) s : (forall b, P b <-> f b = true) -> (Forall P s <-> Forall (fun b => f b = true) s).
Proof. intros H. rewrite !Forall_forall. split; intros X b Hb; apply H, X, Hb. Qed.
Lemma host_bs s : Forall host_char s <-> Forall (fun b => host_b b = true) s.
Proof. apply Forall_b. intros b. apply char_b. Qed.
Lemma user_bs s : Forall user_char s <-> Forall (fun b => user_b b = true) s.
Proof. apply Forall_b. intros b. apply char_b. Qed.
Lemma password_bs s : Forall password_char s <-> Forall (fun b => password_b b = true) s.
Proof. apply Forall_b. intros b. apply char_b. Qed.
Lemma file_bs s : Forall file_char s <-> Forall (fun b => file_b b = true) s.
Proof. apply Forall_b. intros b. apply char_b. Qed.

Lemma user_is b : user_b b = userinfo_byte b && negb (Byte.eqb b "%") && negb (Byte.eqb b ":").
Proof. apply eqb_prop. apply (every_byte (fun b => Bool.eqb (user_b b) (userinfo_byte b && negb (Byte.eqb b "%") && negb (Byte.eqb b ":")))). vm_compute. reflexivity. Qed.
Lemma password_is b : password_b b = userinfo_byte b && negb (Byte.eqb b "%").
Proof. apply eqb_prop. apply (every_byte (fun b => Bool.eqb (password_b b) (userinfo_byte b && negb (Byte.eqb b "%")))). vm_compute. reflexivity. Qed.

(** ** Decimal *)
Lemma digit_allowed b : is_digit b = true -> host_b b = true.
Proof. apply (class_fact is_digit host_b). vm_compute. reflexivity. Qed.
Lemma decimal_digits n s : decimal n s -> Forall (fun b => is_digit b = true) s /\ s <> [].
Proof.
  induction 1 as [d b Hd Hb|n s d b Hs [IH1 IH2] Hn Hd Hb].
  - split; [|easy]. repeat constructor. unfold is_digit. lia.
  - split; [|now destruct s]. apply Forall_app. split; [exact IH1|]. repeat constructor. unfold is_digit. lia.
Qed.

(** ** The shape of addresses *)
Lemma unescape_user s : Forall (fun b => password_b b = true) s -> unescape MUser s = Some s.
Proof.
  intros H. apply unescape_plain. eapply Forall_impl; [|exact H]. intros b Hb. split; [intros ->; discriminate|]. split; [reflexivity|discriminate].
Qed.
Lemma user_password b : user_b b = true -> password_b b = true.
Proof. apply (class_fact user_b password_b). vm_compute. reflexivity. Qed.
Definition host_port_b (b : byte) : bool := host_b b || Byte.eqb b ":".
Lemma host_port_escape b : host_port_b b = true -> should_escape_host b = false.
Proof. intros H. apply negb_true_iff. revert H. apply (class_fact host_port_b (fun b => negb (should_escape_host b))). vm_compute. reflexivity. Qed.
Lemma unescape_host s : Forall (fun b => host_port_b b = true) s -> unescape MHost s = Some s.
Proof.
  intros H. apply unescape_plain. eapply Forall_impl; [|exact H]. intros b Hb. split; [intros ->; discriminate|]. split; [|discriminate].
  cbn. now rewrite (host_port_escape b Hb), andb_false_r.
Qed.
Lemma parse_host_port h ds : Forall (fun b => host_b b = true) h -> Forall (fun b => is_digit b = true) ds ->
  parse_host (h ++ str ":" ++ ds) = Some (h ++ str ":" ++ ds).
Proof.
  intros Hh Hd.
  assert (U : unescape MHost (h ++ str ":" ++ ds) = Some (h ++ str ":" ++ ds)).
  { apply unescape_host. apply Forall_app. split; [eapply Forall_impl; [|exact Hh]; intros b X; unfold host_port_b; now rewrite X|].
    constructor; [reflexivity|]. eapply Forall_impl; [|exact Hd]. intros b X. unfold host_port_b. now rewrite (digit_allowed b X). }
  assert (C : cut_last ":" (h ++ str ":" ++ ds) = Some (h, ds)) by (apply (cut_last_app ":"); apply (avoids is_digit); [reflexivity|exact Hd]).
  assert (V : valid_optional_port (":"%byte :: ds) = true) by (cbn; apply forallb_forall; rewrite Forall_forall in Hd; exact Hd).
  unfold parse_host. destruct (h ++ str ":" ++ ds) as [|c t] eqn:E; [now destruct h|].
  assert (N : c <> "["%byte) by (destruct h as [|x h]; cbn in E; injection E as <- _; [discriminate|]; intros ->; inversion Hh; discriminate).
  rewrite C, V, U. destruct c; try reflexivity. now destruct N.
Qed.
Lemma parse_authority_full u p h ds : Forall (fun b => user_b b = true) u -> Forall (fun b => password_b b = true) p ->
  Forall (fun b => host_b b = true) h -> Forall (fun b => is_digit b = true) ds ->
  parse_authority (u ++ str ":" ++ p ++ str "@" ++ h ++ str ":" ++ ds) = Some (Some (u, Some p), h ++ str ":" ++ ds).
Proof.
  intros Hu Hp Hh Hd. unfold parse_authority.
  replace (u ++ str ":" ++ p ++ str "@" ++ h ++ str ":" ++ ds) with ((u ++ str ":" ++ p) ++ "@"%byte :: (h ++ str ":" ++ ds)) by now rewrite <- !app_assoc.
  rewrite (cut_last_app "@").
  2:{ intros X. apply in_app_or in X. destruct X as [X|X]; [revert X; now apply (avoids host_b)|]. destruct X as [X|X]; [discriminate|]. revert X. now apply (avoids is_digit). }
  rewrite (parse_host_port h ds Hh Hd).
  assert (V : valid_userinfo (u ++ str ":" ++ p) = true).
  { unfold valid_userinfo. apply forallb_forall. apply Forall_forall. apply Forall_app. split; [|constructor; [reflexivity|]].
    - rewrite Forall_forall in Hu |- *. intros b X. specialize (Hu b X). rewrite user_is in Hu. rewrite !andb_true_iff in Hu. tauto.
    - rewrite Forall_forall in Hp |- *. intros b X. specialize (Hp b X). rewrite password_is in Hp. rewrite !andb_true_iff in Hp. tauto. }
  rewrite V. change (u ++ str ":" ++ p) with (u ++ ":"%byte :: p). rewrite (cut_app ":" u p); [|now apply (avoids user_b)].
  rewrite unescape_user; [|eapply Forall_impl; [|exact Hu]; apply user_password]. rewrite unescape_user by exact Hp. reflexivity.
Qed.

Lemma has_ctl_none s : Forall (fun b => (32 <=? bz b) && negb (bz b =? 127) = true) s -> has_ctl s = false.
Proof.
  intros H. unfold has_ctl. apply not_true_iff_false. rewrite existsb_exists. intros (b & Hb & E). rewrite Forall_forall in H. specialize (H b Hb). lia.
Qed.
Definition visible (b : byte) : bool := (32 <=? bz b) && negb (bz b =? 127).

(** What follows the scheme. *)
Lemma parse_scheme (r : bool) s : Forall (fun b => visible b = true) s ->
  parse_no_fragment ((if r then str "bolt+routing" else str "bolt") ++ str "://" ++ s) = parse_rest (if r then str "bolt+routing" else str "bolt") (str "//" ++ s).
Proof.
  intros H. unfold parse_no_fragment. rewrite has_ctl_none.
  - destruct r; reflexivity.
  - apply Forall_app. split; [destruct r; repeat constructor|]. apply Forall_app. split; [repeat constructor|exact H].
Qed.
(** An authority with or without a query. *)
Lemma parse_rest_gen scheme a rest query : scheme <> [] -> ~ In "/"%byte a -> split_at "?" (str "//" ++ a ++ rest) = (str "//" ++ a, query) ->
  parse_rest scheme (str "//" ++ a ++ rest) = match parse_authority a with Some (u, h) => Some (mkUrl scheme u h query) | None => None end.
Proof.
  intros Hs Hb E. unfold parse_rest. rewrite E.
  replace (has_prefix (str "/") (str "//" ++ a)) with true by reflexivity. cbn [negb andb].
  assert (bytes_eqb scheme [] = false) as -> by (destruct scheme; [now destruct Hs|reflexivity]). cbn [negb orb].
  replace (has_prefix (str "//") (str "//" ++ a)) with true by (cbn; reflexivity). cbn [andb].
  change (skipn 2 (str "//" ++ a)) with a. unfold split_slash. rewrite (cut_none "/" a Hb). cbn [unescape].
  destruct (parse_authority a) as [[u h]|]; reflexivity.
Qed.
Lemma slashes_no_question a : ~ In "?"%byte a -> ~ In "?"%byte (str "//" ++ a).
Proof. intros H [X|[X|X]]; [discriminate|discriminate|now apply H]. Qed.
Lemma parse_rest_plain scheme a : scheme <> [] -> ~ In "?"%byte a -> ~ In "/"%byte a ->
  parse_rest scheme (str "//" ++ a) = match parse_authority a with Some (u, h) => Some (mkUrl scheme u h []) | None => None end.
Proof.
  intros Hs Ha Hb. pose proof (parse_rest_gen scheme a [] [] Hs Hb) as X. rewrite app_nil_r in X. apply X.
  apply split_at_none. now apply slashes_no_question.
Qed.
Lemma parse_rest_query scheme a query : scheme <> [] -> ~ In "?"%byte a -> ~ In "/"%byte a ->
  parse_rest scheme (str "//" ++ a ++ "?"%byte :: query) = match parse_authority a with Some (u, h) => Some (mkUrl scheme u h query) | None => None end.
Proof.
  intros Hs Ha Hb. apply parse_rest_gen; [exact Hs|exact Hb|].
  change (str "//" ++ a ++ "?"%byte :: query) with ((str "//" ++ a) ++ "?"%byte :: query). apply split_at_app. now apply slashes_no_question.
Qed.

(** ** Whole addresses *)
Definition scheme_of (r : bool) : bytes := if r then str "bolt+routing" else str "bolt".
Lemma scheme_ne r : scheme_of r <> [].
Proof. destruct r; discriminate. Qed.
Lemma scheme_avoids r c : one_of (str "bolt+routing://") c = false -> ~ In c (scheme_of r ++ str "://").
Proof.
  intros H X. assert (one_of (str "bolt+routing://") c = true); [|congruence]. apply one_of_in.
  destruct r; cbn in X |- *; intuition.
Qed.
Definition authority_b (b : byte) : bool := password_b b || host_port_b b.
Lemma authority_bs u p h ds : Forall (fun b => user_b b = true) u -> Forall (fun b => password_b b = true) p ->
  Forall (fun b => host_b b = true) h -> Forall (fun b => is_digit b = true) ds ->
  Forall (fun b => authority_b b = true) (u ++ str ":" ++ p ++ str "@" ++ h ++ str ":" ++ ds).
Proof.
  intros Hu Hp Hh Hd. repeat (apply Forall_app; split); try (repeat constructor; fail).
  - eapply Forall_impl; [|exact Hu]. intros b X. unfold authority_b. now rewrite (user_password b X).
  - eapply Forall_impl; [|exact Hp]. intros b X. unfold authority_b. now rewrite X.
  - eapply Forall_impl; [|exact Hh]. intros b X. unfold authority_b, host_port_b. now rewrite X, orb_true_r.
  - eapply Forall_impl; [|exact Hd]. intros b X. unfold authority_b, host_port_b. now rewrite (digit_allowed b X), orb_true_r.
Qed.
Lemma authority_visible s : Forall (fun b => authority_b b = true) s -> Forall (fun b => visible b = true) s.
Proof. apply Forall_impl. apply (class_fact authority_b visible). vm_compute. reflexivity. Qed.
Lemma no_hash r s : ~ In "#"%byte s -> ~ In "#"%byte (scheme_of r ++ str "://" ++ s).
Proof.
  intros H X. rewrite app_assoc in X. apply in_app_or in X. destruct X as [X|X]; [|now apply H].
  revert X. apply scheme_avoids. reflexivity.
Qed.
Lemma url_plain r a : Forall (fun b => authority_b b = true) a ->
  url_parse (scheme_of r ++ str "://" ++ a) = match parse_authority a with Some (u, h) => Some (mkUrl (scheme_of r) u h []) | None => None end.
Proof.
  intros H. unfold url_parse. rewrite split_at_none by (apply no_hash; now apply (avoids authority_b)).
  unfold scheme_of at 1. rewrite parse_scheme by now apply authority_visible. fold (scheme_of r).
  rewrite parse_rest_plain; [|apply scheme_ne|now apply (avoids authority_b)|now apply (avoids authority_b)]. cbn [unescape].
  destruct (parse_authority a) as [[u h]|]; reflexivity.
Qed.
Lemma url_query r a q : Forall (fun b => authority_b b = true) a -> Forall (fun b => visible b = true) q -> ~ In "#"%byte q ->
  url_parse (scheme_of r ++ str "://" ++ a ++ "?"%byte :: q) = match parse_authority a with Some (u, h) => Some (mkUrl (scheme_of r) u h q) | None => None end.
Proof.
  intros H Hq Hn. unfold url_parse. rewrite split_at_none.
  2:{ apply no_hash. intros X. apply in_app_or in X. destruct X as [X|[X|X]]; [revert X; now apply (avoids authority_b)|discriminate|now apply Hn]. }
  unfold scheme_of at 1. rewrite parse_scheme. 2:{ apply Forall_app. split; [now apply authority_visible|]. constructor; [reflexivity|exact Hq]. }
  fold (scheme_of r). rewrite parse_rest_query; [|apply scheme_ne|now apply (avoids authority_b)|now apply (avoids authority_b)]. cbn [unescape].
  destruct (parse_authority a) as [[u h]|]; reflexivity.
Qed.

(** ** Decimal text *)
Lemma show_decimal fuel : forall z, 0 <= z -> (Z.to_nat (Z.log2 z) < fuel)%nat -> decimal z (show_digits fuel z).
Proof.
  induction fuel as [|fuel IH]; intros z Hz Hf; [lia|]. cbn [show_digits]. destruct (Z.ltb_spec z 10).
  - constructor; [lia|]. rewrite bz_zb, Z.mod_small; lia.
  - rewrite (Z.div_mod z 10) at 1 by lia.
    assert (L : Z.log2 (z / 10) < Z.log2 z).
    { replace (Z.log2 z) with (Z.succ (Z.log2 z - 1)) by lia. assert (Z.log2 (z / 10) <= Z.log2 (z / 2)).
      { apply Z.log2_le_mono. apply Z.div_le_compat_l; lia. }
      assert (Z.log2 (z / 2) = Z.log2 z - 1); [|lia]. rewrite <- Z.shiftr_div_pow2 with (n := 1) by lia. rewrite Z.log2_shiftr by lia. pose proof (Z.log2_le_mono 10 z). change (Z.log2 10) with 3 in *. lia. }
    constructor.
    + apply IH; [apply Z.div_pos; lia|]. pose proof (Z.log2_nonneg (z / 10)). lia.
    + apply Z.div_str_pos. lia.
    + pose proof (Z.mod_pos_bound z 10). lia.
    + pose proof (Z.mod_pos_bound z 10). rewrite bz_zb, Z.mod_small; lia.
Qed.
Lemma show_int_decimal z : 0 <= z -> decimal z (show_int z).
Proof. intros H. unfold show_int. destruct (Z.ltb_spec z 0); [lia|]. apply show_decimal; [exact H|]. lia. Qed.
