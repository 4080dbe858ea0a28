(** Facts about the routing table. *)
From Coq Require Import String ZArith List Bool Lia ZifyBool.
From Verif Require Import Bytes GoVal GoErr Decoder Messages GoStr Routing Pool SpecPool BytesFacts.
Import ListNotations.
Open Scope Z_scope.

Lemma to_lower_cons b s : to_lower (b :: s) =
  if Byte.eqb b xc4 then match s with xb0 :: s' => "i"%byte :: to_lower s' | _ => xc4 :: to_lower s end
  else if Byte.eqb b xe2 then match s with x84 :: xaa :: s' => "k"%byte :: to_lower s' | _ => xe2 :: to_lower s end
  else lower_byte b :: to_lower s.
Proof. destruct b; reflexivity. Qed.

Definition plain_text (t : bytes) : bool := forallb (fun b => (bz b <? 128) && negb ((65 <=? bz b) && (bz b <=? 90))) t.

Lemma folds_lower s t : folds s t -> to_lower s = t.
Proof.
  induction 1 as [|b s t H1 H2 _ IH|b c s t H1 H2 _ IH|s t _ IH|s t _ IH]; [reflexivity|..].
  - rewrite to_lower_cons, IH.
    destruct (Byte.eqb b xc4) eqn:E1. { apply Byte.byte_dec_bl in E1; subst b; change (bz xc4) with 196 in H1; lia. }
    destruct (Byte.eqb b xe2) eqn:E2. { apply Byte.byte_dec_bl in E2; subst b; change (bz xe2) with 226 in H1; lia. }
    f_equal. unfold lower_byte. destruct ((65 <=? bz b) && (bz b <=? 90)) eqn:E; [lia|reflexivity].
  - rewrite to_lower_cons, IH.
    destruct (Byte.eqb b xc4) eqn:E1. { apply Byte.byte_dec_bl in E1; subst b; change (bz xc4) with 196 in H1; lia. }
    destruct (Byte.eqb b xe2) eqn:E2. { apply Byte.byte_dec_bl in E2; subst b; change (bz xe2) with 226 in H1; lia. }
    f_equal. unfold lower_byte. destruct ((65 <=? bz b) && (bz b <=? 90)) eqn:E; [|lia].
    rewrite <- H2. apply zb_bz.
  - rewrite to_lower_cons, IH. reflexivity.
  - rewrite to_lower_cons, IH. reflexivity.
Qed.

Lemma to_lower_c4 s : to_lower (xc4 :: s) = xc4 :: to_lower s \/ exists s', s = xb0 :: s' /\ to_lower (xc4 :: s) = "i"%byte :: to_lower s'.
Proof. destruct s as [|c s]; [now left|]. destruct c; try (now left). right. now exists s. Qed.
Lemma to_lower_e2 s : to_lower (xe2 :: s) = xe2 :: to_lower s \/ exists s', s = x84 :: xaa :: s' /\ to_lower (xe2 :: s) = "k"%byte :: to_lower s'.
Proof.
  destruct s as [|c s]; [now left|]. destruct c; try (now left).
  destruct s as [|d s]; [now left|]. destruct d; try (now left). right. now exists s.
Qed.

Lemma lower_folds n : forall s t, (length s <= n)%nat -> plain_text t = true -> to_lower s = t -> folds s t.
Proof.
  induction n as [|n IH]; intros s t Hl Hp E.
  - destruct s; [|cbn in Hl; lia]. cbn in E. subst t. constructor.
  - destruct s as [|b s]; [cbn in E; subst t; constructor|]. cbn [length] in Hl.
    destruct (Byte.eqb b xc4) eqn:E1.
    { apply Byte.byte_dec_bl in E1; subst b. destruct (to_lower_c4 s) as [H|(s' & -> & H)]; rewrite H in E; subst t.
      - cbn [plain_text forallb] in Hp. change (bz xc4) with 196 in Hp. cbn in Hp. discriminate.
      - cbn [plain_text forallb] in Hp. apply andb_true_iff in Hp. apply folds_dotted. apply IH; [cbn in Hl; lia|apply Hp|reflexivity]. }
    destruct (Byte.eqb b xe2) eqn:E2.
    { apply Byte.byte_dec_bl in E2; subst b. destruct (to_lower_e2 s) as [H|(s' & -> & H)]; rewrite H in E; subst t.
      - cbn [plain_text forallb] in Hp. change (bz xe2) with 226 in Hp. cbn in Hp. discriminate.
      - cbn [plain_text forallb] in Hp. apply andb_true_iff in Hp. apply folds_kelvin. apply IH; [cbn in Hl; lia|apply Hp|reflexivity]. }
    rewrite to_lower_cons, E1, E2 in E. subst t. cbn [plain_text forallb] in Hp. apply andb_true_iff in Hp. destruct Hp as [Hb Hp].
    assert (F : folds s (to_lower s)) by (apply IH; [lia|exact Hp|reflexivity]).
    unfold lower_byte in *. destruct ((65 <=? bz b) && (bz b <=? 90)) eqn:Eu.
    + apply folds_upper; [lia| |exact F]. rewrite bz_zb. apply Z.mod_small. lia.
    + apply folds_same; [lia|lia|exact F].
Qed.
Lemma lower_iff s t : plain_text t = true -> (to_lower s = t <-> folds s t).
Proof. intros H. split; [apply (lower_folds (length s)); [lia|exact H]|apply folds_lower]. Qed.

(** ** Roles *)

Lemma role_info s : match info_from_role_string s with
  | (k, m) => (role_kind s k /\ (k = Leader \/ k = Follower \/ k = ReadReplica) /\ m = (if k =? Leader then WriteMode else ReadMode))
              \/ (k = -1 /\ forall k', ~ role_kind s k')
  end.
Proof.
  unfold info_from_role_string.
  assert (L : forall t, plain_text t = true -> bytes_eqb (to_lower s) t = true <-> folds s t)
    by (intros t Ht; rewrite bytes_eqb_eq; now apply lower_iff).
  destruct (bytes_eqb (to_lower s) (str "leader")) eqn:E1.
  { left. split; [constructor; now apply L|auto]. }
  destruct (bytes_eqb (to_lower s) (str "follower")) eqn:E2.
  { left. split; [constructor; now apply L|auto]. }
  destruct (bytes_eqb (to_lower s) (str "read_replica")) eqn:E3.
  { left. split; [apply kind_replica; now apply L|auto]. }
  right. split; [reflexivity|]. intros k' Hk. destruct Hk as [s H|s H|s H]; apply L in H; try reflexivity; congruence.
Qed.
Lemma role_unique s k k' : role_kind s k -> role_kind s k' -> k = k'.
Proof.
  intros H1 H2. destruct H1 as [s H1|s H1|s H1]; destruct H2 as [s H2|s H2|s H2]; try reflexivity;
  apply folds_lower in H1; apply folds_lower in H2; rewrite H1 in H2; discriminate.
Qed.
Lemma role_kinds s k : role_kind s k -> k = Leader \/ k = Follower \/ k = ReadReplica.
Proof. destruct 1; auto. Qed.

(** ** Rows *)

Lemma strings_of_map l : strings_of (map GStr l) = Some l.
Proof. induction l as [|a l IH]; [reflexivity|]. cbn. now rewrite IH. Qed.
Lemma strings_of_inv l r : strings_of l = Some r -> l = map GStr r.
Proof.
  revert r. induction l as [|x l IH]; intros r H; cbn in H; [now injection H as <-|].
  destruct x; cbn in H; try discriminate. destruct (strings_of l) as [r'|] eqn:E; [|discriminate].
  injection H as <-. cbn. now rewrite (IH r' eq_refl).
Qed.
Lemma convert_ok g r : convert_to_string_arr g = Ok r <-> g = GSlice (map GStr r).
Proof.
  split; [|intros ->; cbn; now rewrite strings_of_map].
  destruct g; cbn; try discriminate. destruct (strings_of _) as [r'|] eqn:E; [|discriminate].
  intros [= <-]. now rewrite (strings_of_inv _ _ E).
Qed.
Lemma convert_total g : (exists r, convert_to_string_arr g = Ok r) \/ (exists e, convert_to_string_arr g = Err e).
Proof. destruct g; cbn; eauto. destruct (strings_of _); eauto. Qed.

Lemma row_v4 row id addresses role : parse_row_v4 row = Ok (id, addresses, role) <-> row_says 4 row id addresses role.
Proof.
  split.
  - unfold parse_row_v4. destruct row as [|r0 [|r1 [|r2 [|r3 [|]]]]]; try discriminate.
    destruct r0; cbn [as_string]; try discriminate.
    destruct (convert_to_string_arr r1) as [a| | |] eqn:E; try discriminate. apply convert_ok in E. subst r1.
    destruct r2; try discriminate. destruct (map_get _ _) as [x|] eqn:Em; [|discriminate].
    destruct x; cbn [as_string]; try discriminate. intros [= <- <- <-]. now constructor.
  - intros H. remember 4 as v eqn:Ev in H. destruct H as [id addresses dbs role g H|v id addresses role g d H]; [|congruence].
    cbn [parse_row_v4 as_string]. replace (convert_to_string_arr (GSlice (map GStr addresses))) with (Ok addresses) by (symmetry; now apply convert_ok).
    now rewrite H.
Qed.
Lemma row_v3 v row id addresses role : v <> 4 -> parse_row_v3 row = Ok (id, addresses, role) <-> row_says v row id addresses role.
Proof.
  intros Hv. split.
  - unfold parse_row_v3. destruct row as [|r0 [|r1 [|r2 [|r3 [|r4 [|]]]]]]; try discriminate.
    destruct r0; cbn [as_string]; try discriminate.
    destruct (convert_to_string_arr r1) as [a| | |] eqn:E; try discriminate. apply convert_ok in E. subst r1.
    destruct r2; cbn [as_string]; try discriminate.
    destruct (convert_to_string_arr r3) as [g| | |] eqn:E; try discriminate. apply convert_ok in E. subst r3.
    destruct r4; cbn [as_string]; try discriminate. intros [= <- <- <-]. now constructor.
  - intros H. destruct H as [|v id addresses role g d H]; [congruence|].
    cbn [parse_row_v3 as_string].
    replace (convert_to_string_arr (GSlice (map GStr addresses))) with (Ok addresses) by (symmetry; now apply convert_ok).
    now replace (convert_to_string_arr (GSlice (map GStr g))) with (Ok g) by (symmetry; now apply convert_ok).
Qed.
Definition parse_row (v : Z) (row : list gval) := if v =? 4 then parse_row_v4 row else parse_row_v3 row.
Lemma row_iff v row id addresses role : parse_row v row = Ok (id, addresses, role) <-> row_says v row id addresses role.
Proof. unfold parse_row. destruct (Z.eqb_spec v 4) as [->|]; [apply row_v4|now apply row_v3]. Qed.
Lemma row_total v row : (exists r, parse_row v row = Ok r) \/ (exists e, parse_row v row = Err e).
Proof.
  unfold parse_row, parse_row_v4, parse_row_v3, convert_to_string_arr.
  destruct (v =? 4); repeat (match goal with |- context [match ?x with _ => _ end] => destruct x end; eauto).
Qed.

(** ** Addresses *)

Lemma pick_from l a0 : (exists a, last_of (contains (str "bolt")) l a /\ fold_left (fun boltStr s => if contains (str "bolt") s then s else boltStr) l a0 = a)
  \/ (Forall (fun a => contains (str "bolt") a = false) l /\ fold_left (fun boltStr s => if contains (str "bolt") s then s else boltStr) l a0 = a0).
Proof.
  revert a0. induction l as [|x l IH]; intros a0; [right; now split|]. cbn [fold_left].
  destruct (IH (if contains (str "bolt") x then x else a0)) as [(a & (l1 & l2 & -> & Ha & Hn) & E)|[Hf E]].
  - left. exists a. split; [|exact E]. exists (x :: l1), l2. auto.
  - destruct (contains (str "bolt") x) eqn:Ex.
    + left. exists x. split; [|exact E]. exists [], l. auto.
    + right. split; [now constructor|exact E].
Qed.
Lemma pick_cases l : (exists a, last_of (contains (str "bolt")) l a /\ pick_bolt l = a /\ a <> [])
  \/ (Forall (fun a => contains (str "bolt") a = false) l /\ pick_bolt l = []).
Proof.
  unfold pick_bolt. destruct (pick_from l []) as [(a & Ha & E)|[Hf E]]; [left|right; auto].
  exists a. split; [exact Ha|split; [exact E|]]. destruct Ha as (l1 & l2 & _ & Ha & _). intros ->. discriminate.
Qed.
Lemma last_unique f l a b : last_of f l a -> last_of f l b -> a = b.
Proof.
  intros (l1 & l2 & -> & Ha & Hn) (m1 & m2 & E & Hb & Hm).
  apply app_eq_app in E. destruct E as (k & [[-> E]|[-> E]]).
  - destruct k as [|y k]; [now injection E|]. injection E as <- E. subst m2. rewrite Forall_app in Hm. destruct Hm as [_ Hm]. inversion Hm; congruence.
  - destruct k as [|y k]; [now injection E|]. injection E as <- E. subst l2. rewrite Forall_app in Hn. destruct Hn as [_ Hn]. inversion Hn; congruence.
Qed.
Lemma last_none f l a : last_of f l a -> ~ Forall (fun a => f a = false) l.
Proof. intros (l1 & l2 & -> & Ha & _) H. rewrite Forall_app in H. destruct H as [_ H]. inversion H; congruence. Qed.

(** ** The table *)

Lemma member_of_row v row :
  (exists id addresses role, parse_row v row = Ok (id, addresses, role)
     /\ ((pick_bolt addresses = [] /\ member (contains (str "bolt")) v row None)
         \/ (pick_bolt addresses <> []
             /\ let '(k, m) := info_from_role_string role in
                let n := mkNode id addresses (pick_bolt addresses) m k in
                ((k = Leader \/ k = Follower \/ k = ReadReplica) /\ member (contains (str "bolt")) v row (Some (k, n)))
                \/ (k = -1 /\ forall x, ~ member (contains (str "bolt")) v row x))))
  \/ ((exists e, parse_row v row = Err e) /\ forall x, ~ member (contains (str "bolt")) v row x).
Proof.
  destruct (row_total v row) as [[[[id addresses] role] E]|[e E]].
  - left. exists id, addresses, role. split; [exact E|]. assert (R : row_says v row id addresses role) by now apply row_iff.
    destruct (pick_cases addresses) as [(a & Ha & Ea & Hne)|[Hf Ea]].
    + right. rewrite Ea. split; [exact Hne|]. pose proof (role_info role) as RI. destruct (info_from_role_string role) as [k m].
      destruct RI as [(Rk & Hk & Hm)|[Hk Hn]].
      * left. split; [exact Hk|]. eapply member_known; eauto.
      * right. split; [exact Hk|]. intros x M. destruct M as [id' ad' role' kind a' n R' L' K'|id' ad' role' R' F'].
        -- apply row_iff in R'. rewrite E in R'. injection R' as <- <- <-. exact (Hn _ K').
        -- apply row_iff in R'. rewrite E in R'. injection R' as <- <- <-. exact (last_none _ _ _ Ha F').
    + left. split; [exact Ea|]. eapply member_silent; eauto.
  - right. split; [eauto|]. intros x M.
    destruct M as [id' ad' role' kind a' n R' L' K'|id' ad' role' R' F']; apply row_iff in R'; congruence.
Qed.

Lemma node_eq n n' : n_id n = n_id n' -> n_addresses n = n_addresses n' -> n_bolt n = n_bolt n' -> n_action n = n_action n' -> n_type n = n_type n' -> n = n'.
Proof. destruct n, n'; cbn; intros; now subst. Qed.
Lemma says_unique v row i a r i' a' r' : row_says v row i a r -> row_says v row i' a' r' -> i = i' /\ a = a' /\ r = r'.
Proof. intros H1 H2. apply row_iff in H1. apply row_iff in H2. rewrite H1 in H2. injection H2; auto. Qed.
Lemma member_unique f v row x y : member f v row x -> member f v row y -> x = y.
Proof.
  intros [i a r k s n R L K E1 E2 E3 E4 E5|i a r R F] [i' a' r' k' s' n' R' L' K' E1' E2' E3' E4' E5'|i' a' r' R' F'];
    destruct (says_unique _ _ _ _ _ _ _ _ R R') as (-> & -> & ->).
  - assert (Hk : k = k') by (eapply role_unique; eauto). assert (Hs : s = s') by (eapply last_unique; eauto).
    assert (Hn : n = n') by (rewrite Hk in E5; apply node_eq; congruence). congruence.
  - exfalso. eapply last_none; eauto.
  - exfalso. eapply last_none; eauto.
  - reflexivity.
Qed.

Lemma of_kind_app k a b : of_kind k (a ++ b) = of_kind k a ++ of_kind k b.
Proof. apply flat_map_app. Qed.
Definition add_member (x : option (Z * node)) (h : handler) : handler :=
  mkHandler (h_leaders h ++ of_kind Leader [x]) (h_followers h ++ of_kind Follower [x]) (h_replicas h ++ of_kind ReadReplica [x]).
Lemma add_none h : add_member None h = h.
Proof. unfold add_member. cbn. rewrite !app_nil_r. now destruct h. Qed.

Lemma read_rows_cons v row rows acc :
  (exists x, member (contains (str "bolt")) v row x /\ read_rows (v =? 4) (row :: rows) acc = read_rows (v =? 4) rows (add_member x acc))
  \/ ((forall x, ~ member (contains (str "bolt")) v row x) /\ exists e, read_rows (v =? 4) (row :: rows) acc = Err e).
Proof.
  cbn [read_rows]. fold (parse_row v row).
  destruct (member_of_row v row) as [(id & addresses & role & E & [[Ep M]|[Ep M]])|[[e E] M]].
  - left. exists None. split; [exact M|]. rewrite E, Ep, add_none. reflexivity.
  - rewrite E. rewrite (proj2 (bytes_eqb_neq _ _) Ep).
    destruct (info_from_role_string role) as [k m]. cbv zeta in M. destruct M as [[Hk M]|[-> M]].
    + left. eexists. split; [exact M|].
      destruct Hk as [->|[->| ->]]; unfold add_member; cbn; rewrite ?app_nil_r; reflexivity.
    + right. split; [exact M|]. eexists. reflexivity.
  - right. split; [exact M|]. exists e. now rewrite E.
Qed.

Lemma read_rows_ok v rows : forall acc h, read_rows (v =? 4) rows acc = Ok h <->
  exists ms, Forall2 (member (contains (str "bolt")) v) rows ms
  /\ h_leaders h = h_leaders acc ++ of_kind Leader ms /\ h_followers h = h_followers acc ++ of_kind Follower ms
  /\ h_replicas h = h_replicas acc ++ of_kind ReadReplica ms.
Proof.
  induction rows as [|row rows IH]; intros acc h.
  - cbn. split.
    + intros [= ->]. exists []. cbn. rewrite !app_nil_r. auto.
    + intros (ms & F & H1 & H2 & H3). inversion F; subst. cbn in *. rewrite !app_nil_r in *. f_equal. destruct h, acc; cbn in *; now subst.
  - destruct (read_rows_cons v row rows acc) as [(x & M & ->)|[M [e ->]]].
    + rewrite IH. split.
      * intros (ms & F & H1 & H2 & H3). exists (x :: ms). split; [now constructor|].
        change (x :: ms) with ([x] ++ ms). rewrite !of_kind_app, !app_assoc. auto.
      * intros (ms & F & H1 & H2 & H3). inversion F as [|? y ? ms' My F']; subst.
        assert (y = x) by (eapply member_unique; eauto). subst y.
        exists ms'. split; [exact F'|]. change (x :: ms') with ([x] ++ ms') in *. rewrite !of_kind_app, !app_assoc in *. auto.
    + split; [discriminate|]. intros (ms & F & _). inversion F as [|? y ? ms' My F']; subst. now destruct (M y).
Qed.
Lemma read_rows_table v rows h : read_rows (v =? 4) rows no_handler = Ok h <-> table_of (contains (str "bolt")) v rows h.
Proof. rewrite read_rows_ok. reflexivity. Qed.
Lemma read_rows_fails v rows acc : (exists h, read_rows (v =? 4) rows acc = Ok h) \/ (exists e, read_rows (v =? 4) rows acc = Err e).
Proof.
  revert acc. induction rows as [|row rows IH]; intros acc; [cbn; eauto|].
  destruct (read_rows_cons v row rows acc) as [(x & _ & ->)|[_ [e ->]]]; eauto.
Qed.

(** Reading an overview, whatever it holds. *)
Theorem refresh_cases h v rows :
  (exists h', refresh_cluster_info h v (Ok rows) = (h', Ok tt) /\ table_of (contains (str "bolt")) v rows h')
  \/ (exists e, refresh_cluster_info h v (Ok rows) = (h, Err e)) /\ ~ readable v rows.
Proof.
  cbn. destruct (read_rows_fails v rows no_handler) as [[h' E]|[e E]]; rewrite E.
  - left. exists h'. split; [reflexivity|]. now apply read_rows_table.
  - right. split; [eauto|]. intros [h' T]. apply read_rows_table in T. congruence.
Qed.
Theorem refresh_table h v rows h' : refresh_cluster_info h v (Ok rows) = (h', Ok tt) <-> table_of (contains (str "bolt")) v rows h'.
Proof.
  rewrite <- read_rows_table. cbn. destruct (read_rows _ rows no_handler); split; try discriminate; congruence.
Qed.

(** With addresses that mention bolt only in bolt addresses, "contains bolt" tells bolt addresses. *)
Lemma contains_prefix sub s : has_prefix sub s = true -> contains sub s = true.
Proof. intros H. destruct s; cbn [contains]; now rewrite H. Qed.
Lemma prefix_trans a b s : has_prefix (a ++ b) s = true -> has_prefix a s = true.
Proof. revert s. induction a as [|x a IH]; intros [|y s]; cbn; try easy. intros H. apply andb_true_iff in H. rewrite (IH s); [now rewrite (proj1 H)|apply H]. Qed.
Lemma bolt_contains a : bolt_address a = true -> contains (str "bolt") a = true.
Proof. intros H. apply contains_prefix. exact (prefix_trans (str "bolt") (str "://") a H). Qed.
Lemma plain_same l : plain_addresses l -> forall a, In a l -> contains (str "bolt") a = bolt_address a.
Proof.
  intros H a Ha. destruct (contains (str "bolt") a) eqn:E; [symmetry; auto|].
  destruct (bolt_address a) eqn:E'; [|reflexivity]. apply bolt_contains in E'. congruence.
Qed.
Lemma last_of_ext f g l a : (forall x, In x l -> f x = g x) -> last_of f l a -> last_of g l a.
Proof.
  intros H (l1 & l2 & -> & Ha & Hn). exists l1, l2. split; [reflexivity|]. split.
  - rewrite <- H; [exact Ha|]. apply in_or_app. right. now left.
  - rewrite Forall_forall in *. intros x Hx. rewrite <- H; [auto|]. apply in_or_app. right. now right.
Qed.
Lemma member_ext f g v row x : (forall id ad r, row_says v row id ad r -> forall a, In a ad -> f a = g a) -> member f v row x -> member g v row x.
Proof.
  intros H [i a r k s n R L K E1 E2 E3 E4 E5|i a r R F].
  - eapply member_known; eauto. eapply last_of_ext; [|exact L]. eapply H; eauto.
  - eapply member_silent; eauto. rewrite Forall_forall in *. intros y Hy. rewrite <- (H _ _ _ R); auto.
Qed.
Lemma table_ext f g v rows h : (forall row, In row rows -> forall id ad r, row_says v row id ad r -> forall a, In a ad -> f a = g a) ->
  table_of f v rows h -> table_of g v rows h.
Proof.
  intros H (ms & F & E). exists ms. split; [|exact E].
  revert H. clear E. induction F as [|row m rows ms M F IH]; intros H; constructor.
  - eapply member_ext; [|exact M]. apply H. now left.
  - apply IH. intros r Hr. apply H. now right.
Qed.
Theorem refresh_table_plain h v rows h' : Forall (plain_row v) rows ->
  (refresh_cluster_info h v (Ok rows) = (h', Ok tt) <-> table_of bolt_address v rows h').
Proof.
  intros H. rewrite refresh_table. rewrite Forall_forall in H.
  split; apply table_ext; intros row Hr id ad r R a Ha; pose proof (plain_same _ (H row Hr id ad r R) a Ha); congruence.
Qed.
Theorem refresh_plain_error h v rows : Forall (plain_row v) rows -> (forall h', ~ table_of bolt_address v rows h') ->
  exists e, refresh_cluster_info h v (Ok rows) = (h, Err e).
Proof.
  intros H N. destruct (refresh_cases h v rows) as [(h' & E & T)|[[e E] _]]; [|eauto].
  apply (refresh_table_plain h v rows h' H) in E. now destruct (N h').
Qed.

(** C60 *)
Theorem failed_refresh h v r h' : (forall x, snd (refresh_cluster_info h v r) <> Ok x) -> fst (refresh_cluster_info h v r) = h' -> h' = h.
Proof.
  destruct r as [rows|e| |]; cbn; try (now intros _ <-).
  destruct (read_rows _ rows no_handler); cbn; try (now intros _ <-). intros H. now destruct (H tt).
Qed.

(** The addresses the pool takes from a table. *)
Lemma of_kind_in k n ms : In n (of_kind k ms) <-> In (Some (k, n)) ms.
Proof.
  unfold of_kind. rewrite in_flat_map. split.
  - intros ([[k' n']|] & Hin & H); [|easy]. destruct (Z.eqb_spec k' k) as [->|]; [|easy]. destruct H as [->|[]]. exact Hin.
  - intros H. exists (Some (k, n)). split; [exact H|]. rewrite Z.eqb_refl. now left.
Qed.
Lemma Forall2_in_r {A B} (R : A -> B -> Prop) l m y : Forall2 R l m -> In y m -> exists x, In x l /\ R x y.
Proof. induction 1; intros H'; [easy|]. destruct H' as [->|H']; [eauto using in_eq|]. destruct (IHForall2 H') as (x' & ? & ?). exists x'. split; [now right|easy]. Qed.
Lemma table_lists v rows h k n : table_of (contains (str "bolt")) v rows h ->
  In n (if k =? Leader then h_leaders h else if k =? Follower then h_followers h else h_replicas h) ->
  lists v rows (if k =? Leader then [Leader] else if k =? Follower then [Follower] else [ReadReplica]) (n_bolt n).
Proof.
  intros (ms & F & E1 & E2 & E3) H.
  assert (G : exists k', k' = (if k =? Leader then Leader else if k =? Follower then Follower else ReadReplica) /\ In n (of_kind k' ms)).
  { destruct (k =? Leader); [|destruct (k =? Follower)]; eexists; (split; [reflexivity|]); congruence. }
  destruct G as (k' & Ek & G). apply of_kind_in in G. destruct (Forall2_in_r _ _ _ _ F G) as (row & Hr & M).
  inversion M as [id ad role kind a n' R L K H1 H2 H3 H4 H5 H6|]; subst.
  exists row, (n_id n), (n_addresses n), role, (if k =? Leader then Leader else if k =? Follower then Follower else ReadReplica).
  split; [exact Hr|]. split; [exact R|]. split.
  { destruct L as (l1 & l2 & -> & _). apply in_or_app. right. now left. }
  split; [exact K|]. destruct (k =? Leader); [|destruct (k =? Follower)]; now left.
Qed.
Lemma lists_weaken v rows ks ks' a : incl ks ks' -> lists v rows ks a -> lists v rows ks' a.
Proof. intros H (row & id & ad & role & k & Hr & R & Ha & K & Hk). exists row, id, ad, role, k. repeat (split; [assumption|]). auto. Qed.
Lemma write_lists v rows h a : table_of (contains (str "bolt")) v rows h -> In a (get_write_connection_strings h) -> lists v rows [Leader] a.
Proof. intros T H. apply in_map_iff in H. destruct H as (n & <- & H). exact (table_lists v rows h Leader n T H). Qed.
Lemma read_lists v rows h a : table_of (contains (str "bolt")) v rows h -> In a (get_read_only_connection_strings h) -> lists v rows [Follower; ReadReplica] a.
Proof.
  intros T H. apply in_app_or in H. destruct H as [H|H]; apply in_map_iff in H; destruct H as (n & <- & H).
  - eapply lists_weaken; [|exact (table_lists v rows h Follower n T H)]. intros x [<-|[]]. now left.
  - eapply lists_weaken; [|exact (table_lists v rows h ReadReplica n T H)]. intros x [<-|[]]. right. now left.
Qed.
