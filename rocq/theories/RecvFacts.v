(** Every value the decoder returns is well typed, already in received form, and small enough to be
    encoded again (proofs). *)
From Coq Require Import ZArith List Bool Lia ZifyBool.
From Verif Require Import Bytes BytesFacts GoVal GoErr Encoder Decoder SpecPack SpecValues SpecCodec
  PackFacts DecodeFacts ValueFacts.
Import ListNotations.
Open Scope Z_scope.
Ltac Zify.zify_post_hook ::= Z.div_mod_to_equations.

Definition small (n : Z) : Prop := 0 <= n < 2147483648.

Definition rok (v : ver) (g : gval) : Prop :=
  (graph_only g = true -> go_typed g = true /\ plain v g = true /\ rcv g = g)
  /\ Forall small (lens g).

Definition outs {A} (p : parser A) (Q : A -> Prop) := forall b x r, p b = Ok (x, r) -> Q x.

Lemma outs_bind {A B} (p : parser A) (f : A -> parser B) (P : A -> Prop) (Q : B -> Prop) :
  outs p P -> (forall a, P a -> outs (f a) Q) -> outs (pbind p f) Q.
Proof.
  intros Hp Hf b x r. unfold pbind. destruct (p b) as [[a b']| | |] eqn:E; try discriminate.
  intros H. eapply Hf; eauto.
Qed.
Lemma outs_ret {A} (a : A) (Q : A -> Prop) : Q a -> outs (pret a) Q.
Proof. intros H b x r E. injection E as <- <-. exact H. Qed.
Lemma outs_err {A} t (Q : A -> Prop) : outs (perr t) Q.
Proof. intros b x r E. discriminate. Qed.
Lemma outs_panic {A} (Q : A -> Prop) : outs ppanic Q.
Proof. intros b x r E. discriminate. Qed.
Lemma outs_lift {A} (r : res A) (Q : A -> Prop) : (forall a, r = Ok a -> Q a) -> outs (lift r) Q.
Proof. intros H b x b' E. unfold lift in E. destruct r; try discriminate. injection E as <- <-. now apply H. Qed.

Lemma rok_leaf v g : lens g = [] -> go_typed g = true -> plain v g = true -> rcv g = g -> rok v g.
Proof. intros H1 H2 H3 H4. split; [auto|]. rewrite H1. constructor. Qed.
Lemma rok_foreign v g : lens g = [] -> graph_only g = false -> rok v g.
Proof. intros H1 H2. split; [congruence|]. rewrite H1. constructor. Qed.

Lemma outs_must_int64 v x : rok v x -> outs (must_int64 x) (fun z => is_int64 z = true).
Proof.
  intros [H _]. destruct x; try apply outs_panic. destruct k; try apply outs_panic.
  apply outs_ret. destruct (H eq_refl) as [H1 [H2 _]]. cbn in H1, H2. unfold in_kind in H1. cbn in H1.
  apply is_int64_iff. lia.
Qed.

Definition rmap v (m : list (bytes * gval)) : Prop :=
  NoDup (map fst m) /\ Forall (fun kv => small (zlen (fst kv)) /\ rok v (snd kv)) m /\ small (zlen m).

Lemma rok_props v m : rmap v m ->
  (forallb (fun kv => graph_only (snd kv)) m = true ->
   nodupb (map fst m) = true /\ forallb (fun kv => go_typed (snd kv)) m = true
   /\ forallb (fun kv => plain v (snd kv)) m = true /\ map (fun kv => (fst kv, rcv (snd kv))) m = m)
  /\ Forall small (zlen m :: flat_map (fun kv => zlen (fst kv) :: lens (snd kv)) m).
Proof.
  intros [Hnd [Hf Hs]]. split.
  - intros Hg. split; [now apply nodupb_NoDup|]. clear Hnd Hs.
    induction Hf as [|[k x] m [_ [Hx _]] _ IH]; cbn in *; [auto|]. bsplit.
    destruct (Hx ltac:(assumption)) as [H1 [H2 H3]]. destruct (IH ltac:(assumption)) as [H4 [H5 H6]].
    rewrite H1, H2, H3, H4, H5, H6. auto.
  - constructor; [assumption|]. clear Hs Hnd. induction Hf as [|[k x] m [Hk [_ Hx]] _ IH]; cbn; [constructor|].
    constructor; [assumption|]. now apply Forall_app.
Qed.

Lemma rok_list v l : Forall (rok v) l -> small (zlen l) ->
  (forallb graph_only l = true ->
   forallb go_typed l = true /\ forallb (plain v) l = true /\ map rcv l = l)
  /\ Forall small (zlen l :: flat_map lens l).
Proof.
  intros Hf Hs. split.
  - intros Hg. clear Hs. induction Hf as [|x l [Hx _] _ IH]; cbn in *; [auto|]. bsplit.
    destruct (Hx ltac:(assumption)) as [H1 [H2 H3]]. destruct (IH ltac:(assumption)) as [H4 [H5 H6]].
    rewrite H1, H2, H3, H4, H5, H6. auto.
  - constructor; [assumption|]. clear Hs. induction Hf as [|x l [_ Hx] _ IH]; cbn; [constructor|].
    now apply Forall_app.
Qed.

Lemma rok_slice v l : Forall (rok v) l -> small (zlen l) -> rok v (GSlice l).
Proof.
  intros H1 H2. destruct (rok_list v l H1 H2) as [A B]. split; [|exact B].
  cbn. intros Hg. destruct (A Hg) as [C [D E]]. rewrite E. auto.
Qed.

(** what is known of the elements of a decoded slice or map *)
Definition rslice v (l : list gval) := Forall (rok v) l /\ small (zlen l).

Inductive rgood v : gval -> Prop :=
| rg_slice l : rslice v l -> rgood v (GSlice l)
| rg_map m : rmap v m -> rgood v (GMap m)
| rg_str s : small (zlen s) -> rgood v (GStr s)
| rg_other g : (match g with GSlice _ | GMap _ | GStr _ => False | _ => True end) -> rok v g -> rgood v g.

Lemma rgood_rok v g : rgood v g -> rok v g.
Proof.
  intros [l [H1 H2]|m H|s H|g' _ H]; [now apply rok_slice| | |exact H].
  - destruct (rok_props v m H) as [A B]. split; [|exact B]. cbn. intros Hg.
    destruct (A Hg) as [C [D [E F]]]. rewrite C, D, E, F. auto.
  - split; cbn; [auto|]. repeat constructor; apply H.
Qed.

Lemma outs_read_int k : (k <= 8)%nat -> (0 < k)%nat -> outs (read_int k) (fun z => is_int64 z = true).
Proof.
  intros Hk Hk0. apply outs_bind with (P := fun _ => True); [easy|]. intros a _. apply outs_ret.
  apply is_int64_iff. pose proof (to_signed_range k a Hk0) as H.
  assert (256 ^ Z.of_nat k <= 256 ^ 8) by (apply Z.pow_le_mono_r; lia).
  change (256 ^ 8) with 18446744073709551616 in *. lia.
Qed.

Lemma outs_read_size k : (k <= 4)%nat -> (0 < k)%nat -> outs (read_size k) (fun z => z < 2147483648).
Proof.
  intros Hk Hk0 b x r E. unfold read_size in E. destruct (read_int k b) as [[a b']| | |] eqn:E'; try discriminate.
  cbn in E. injection E as <- <-. unfold read_int, pbind in E'.
  destruct (read_be k b) as [[y b'']| | |]; try discriminate. injection E' as <- <-.
  pose proof (to_signed_range k y Hk0) as H.
  assert (256 ^ Z.of_nat k <= 256 ^ 4) by (apply Z.pow_le_mono_r; lia).
  change (256 ^ 4) with 4294967296 in *. lia.
Qed.

Lemma outs_read_be8 : outs (read_be 8) (fun z => is_bits64 z = true).
Proof.
  intros b x r E. unfold read_be in E. destruct (Nat.ltb (length b) 8) eqn:El; [discriminate|].
  apply Nat.ltb_ge in El. assert (El' : length (firstn 8 b) = 8%nat) by (rewrite firstn_length; lia).
  injection E as <- <-. pose proof (unbe_range (firstn 8 b)) as H.
  unfold zlen in H. rewrite El' in H.
  unfold is_bits64. change (256 ^ Z.of_nat 8) with (2 ^ 64) in H.
  apply andb_true_intro. split; [apply Z.leb_le|apply Z.ltb_lt]; apply H.
Qed.

Lemma outs_pstr v s : s < 2147483648 -> outs (pstr s) (rgood v).
Proof.
  intros Hs. apply outs_bind with (P := fun s => small (zlen s)).
  - intros b x r E. unfold next in E. destruct (s <? 0) eqn:E0; [discriminate|]. injection E as <- <-.
    unfold small, zlen. rewrite firstn_length. unfold zlen. lia.
  - intros a Ha. apply outs_ret. now constructor.
Qed.

Lemma outs_items v dec : outs dec (rgood v) -> forall k n,
  outs (dec_items dec k n) (fun l => Forall (rok v) l /\ zlen l = Z.max 0 n).
Proof.
  intros Hd. induction k as [|k IH]; intros n; cbn [dec_items]; destruct (n <=? 0) eqn:E.
  - apply outs_ret. split; [constructor|]. cbn. lia.
  - intros b x r H. discriminate.
  - apply outs_ret. split; [constructor|]. cbn. lia.
  - eapply outs_bind; [exact Hd|]. intros a Ha. eapply outs_bind; [apply IH|]. intros l [Hl Hz].
    apply outs_ret. split; [constructor; [now apply rgood_rok|assumption]|]. rewrite zlen_cons. lia.
Qed.

Lemma outs_slice v dec n : outs dec (rgood v) -> n < 2147483648 -> outs (dec_slice dec n) (rgood v).
Proof.
  intros Hd Hn b x r. unfold dec_slice. destruct (n <? 0) eqn:E; [discriminate|].
  apply outs_bind with (P := rslice v).
  - intros b' l r' H. apply (outs_items v dec Hd) in H. destruct H as [H1 H2]. split; [assumption|].
    unfold small. lia.
  - intros l Hl. apply outs_ret. now constructor.
Qed.

Lemma map_set_keys {A} (m : list (bytes * A)) k x : forall k',
  In k' (map fst (map_set m k x)) <-> k' = k \/ In k' (map fst m).
Proof.
  induction m as [|[k0 x0] m IH]; intros k'; cbn; [intuition|].
  destruct (bytes_eqb k k0) eqn:E; cbn.
  - apply bytes_eqb_eq in E. subst. intuition.
  - rewrite IH. intuition.
Qed.

Lemma map_set_nodup {A} (m : list (bytes * A)) k x : NoDup (map fst m) -> NoDup (map fst (map_set m k x)).
Proof.
  induction m as [|[k0 x0] m IH]; intros H; cbn; [repeat constructor; easy|].
  inversion H as [|? ? Hni Hnd]; subst. destruct (bytes_eqb k k0) eqn:E; cbn.
  - apply bytes_eqb_eq in E. subst. now constructor.
  - constructor; [|auto]. intros Hin. apply map_set_keys in Hin. destruct Hin as [->|Hin]; [|easy].
    now rewrite bytes_eqb_refl in E.
Qed.

Lemma map_set_forall {A} (P : bytes * A -> Prop) m k x : Forall P m -> P (k, x) -> Forall P (map_set m k x).
Proof.
  induction 1 as [|[k0 x0] m H0 Hm IH]; intros Hx; cbn [map_set].
  - apply Forall_cons; [exact Hx|constructor].
  - destruct (bytes_eqb k k0); apply Forall_cons; auto.
Qed.

Lemma map_set_len {A} (m : list (bytes * A)) k x : zlen (map_set m k x) <= 1 + zlen m.
Proof.
  induction m as [|[k0 x0] m IH]; cbn [map_set]; [cbn; lia|].
  destruct (bytes_eqb k k0); rewrite !zlen_cons; lia.
Qed.

Lemma le_max a n : a <= a + Z.max 0 n. Proof. lia. Qed.

Lemma outs_entries v dec : outs dec (rgood v) -> forall k n acc,
  NoDup (map fst acc) -> Forall (fun kv => small (zlen (fst kv)) /\ rok v (snd kv)) acc ->
  outs (dec_entries dec k n acc)
    (fun m => NoDup (map fst m) /\ Forall (fun kv => small (zlen (fst kv)) /\ rok v (snd kv)) m
              /\ zlen m <= zlen acc + Z.max 0 n).
Proof.
  intros Hd. induction k as [|k IH]; intros n acc Hnd Hf; cbn [dec_entries]; destruct (n <=? 0) eqn:E.
  - apply outs_ret. split; [assumption|split; [assumption|apply le_max]].
  - intros b x r H. discriminate.
  - apply outs_ret. split; [assumption|split; [assumption|apply le_max]].
  - eapply outs_bind; [exact Hd|]. intros key Hkey. eapply outs_bind; [exact Hd|]. intros val Hval.
    destruct key; try apply outs_err.
    intros b m r H. apply IH in H.
    + destruct H as [H1 [H2 H3]]. repeat split; auto. pose proof (map_set_len acc s val). unfold bytes in *. lia.
    + now apply map_set_nodup.
    + apply map_set_forall; [assumption|]. cbn. apply rgood_rok in Hkey, Hval. split; [|assumption].
      destruct Hkey as [_ Hk]. cbn in Hk. now inversion Hk.
Qed.

Lemma outs_map v dec n : outs dec (rgood v) -> n < 2147483648 -> outs (dec_map dec n) (rgood v).
Proof.
  intros Hd Hn b x r. unfold dec_map. apply outs_bind with (P := rmap v).
  - intros b' m r' H. apply (outs_entries v dec Hd) in H; [|constructor|constructor].
    destruct H as [H1 [H2 H3]]. repeat split; auto; unfold small; pose proof (zlen_nonneg m); cbn in H3; lia.
  - intros m Hm. apply outs_ret. now constructor.
Qed.

Lemma outs_as_slice v t x : rgood v x -> outs (as_slice t x) (rslice v).
Proof. intros H. destruct x; try apply outs_err. apply outs_ret. inversion H; subst; [assumption|easy]. Qed.
Lemma outs_as_map v t x : rgood v x -> outs (as_map t x) (rmap v).
Proof. intros H. destruct x; try apply outs_err. apply outs_ret. inversion H; subst; [assumption|easy]. Qed.
Lemma outs_as_str v t x : rgood v x -> outs (as_str t x) (fun s => small (zlen s)).
Proof. intros H. destruct x; try apply outs_err. apply outs_ret. inversion H; subst; [assumption|easy]. Qed.

Lemma slice_to_str_spec l r : slice_to_str l = Ok r -> l = map GStr r.
Proof.
  revert r. induction l as [|x l IH]; cbn; intros r H; [injection H as <-; reflexivity|].
  destruct x; try discriminate. destruct (slice_to_str l); try discriminate. injection H as <-. cbn.
  f_equal. now apply IH.
Qed.
Lemma slice_to_int_spec l r : slice_to_int l = Ok r -> l = map (GInt KInt64) r.
Proof.
  revert r. induction l as [|x l IH]; cbn; intros r H; [injection H as <-; reflexivity|].
  destruct x; try discriminate. destruct k; try discriminate.
  destruct (slice_to_int l); try discriminate. injection H as <-. cbn. f_equal. now apply IH.
Qed.

Lemma outs_strs v l : rslice v l ->
  outs (lift (slice_to_str l)) (fun r => Forall small (zlen r :: map zlen r)).
Proof.
  intros [H1 H2]. apply outs_lift. intros r E. apply slice_to_str_spec in E. subst l.
  rewrite zlen_map in H2. constructor; [assumption|]. clear H2. induction r as [|s r IH]; cbn in *; [constructor|].
  inversion H1 as [|? ? [_ Hs] Hr]; subst. cbn in Hs. inversion Hs; subst. constructor; auto.
Qed.
Lemma outs_ints v l : rslice v l ->
  outs (lift (slice_to_int l)) (fun r => forallb is_int64 r = true /\ small (zlen r)).
Proof.
  intros [H1 H2]. apply outs_lift. intros r E. apply slice_to_int_spec in E. subst l.
  rewrite zlen_map in H2. split; [|assumption]. clear H2. induction r as [|z r IH]; cbn in *; [reflexivity|].
  inversion H1 as [|? ? [Hz _] Hr]; subst. rewrite IH by assumption.
  destruct (Hz eq_refl) as [Ha [Hb _]]. cbn in Ha, Hb. unfold in_kind in Ha. cbn in Ha.
  replace (is_int64 z) with true; [reflexivity|]. symmetry. apply is_int64_iff. lia.
Qed.
Lemma outs_nodes v f l : rslice v l -> outs (lift (slice_to f l)) (fun r => rslice v r /\ forallb f r = true).
Proof.
  intros H. apply outs_lift. intros r E. unfold slice_to in E. destruct (forallb f l) eqn:E0; [|discriminate].
  injection E as <-. auto.
Qed.

Ltac ob := eapply outs_bind.

Lemma outs_node v dec : outs dec (rgood v) -> outs (dec_node dec) (rgood v).
Proof.
  intros Hd. unfold dec_node.
  ob; [exact Hd|intros x Hx]. ob; [apply (outs_must_int64 v), rgood_rok, Hx|intros id Hid].
  ob; [exact Hd|intros y Hy]. ob; [apply outs_as_slice, Hy|intros l Hl]. ob; [apply (outs_strs v), Hl|intros ls Hls].
  ob; [exact Hd|intros z Hz]. ob; [apply outs_as_map, Hz|intros m Hm]. apply outs_ret.
  apply rg_other; [exact I|]. destruct (rok_props v m Hm) as [A B]. split.
  - cbn. intros Hg. destruct (A Hg) as [C [D [E F]]]. rewrite Hid, C, D, E, F. auto.
  - cbn [lens]. inversion Hls; subst. constructor; [assumption|]. apply Forall_app. auto.
Qed.
Lemma outs_rel v dec : outs dec (rgood v) -> outs (dec_rel dec) (rgood v).
Proof.
  intros Hd. unfold dec_rel.
  ob; [exact Hd|intros x Hx]. ob; [apply (outs_must_int64 v), rgood_rok, Hx|intros id Hid].
  ob; [exact Hd|intros x1 Hx1]. ob; [apply (outs_must_int64 v), rgood_rok, Hx1|intros st Hst].
  ob; [exact Hd|intros x2 Hx2]. ob; [apply (outs_must_int64 v), rgood_rok, Hx2|intros en Hen].
  ob; [exact Hd|intros y Hy]. ob; [apply (outs_as_str v), Hy|intros ty Hty].
  ob; [exact Hd|intros z Hz]. ob; [apply outs_as_map, Hz|intros m Hm]. apply outs_ret.
  apply rg_other; [exact I|]. destruct (rok_props v m Hm) as [A B]. split.
  - cbn. intros Hg. destruct (A Hg) as [C [D [E F]]]. rewrite Hid, Hst, Hen, C, D, E, F. auto.
  - cbn [lens]. constructor; assumption.
Qed.
Lemma outs_urel v dec : outs dec (rgood v) -> outs (dec_urel dec) (rgood v).
Proof.
  intros Hd. unfold dec_urel.
  ob; [exact Hd|intros x Hx]. ob; [apply (outs_must_int64 v), rgood_rok, Hx|intros id Hid].
  ob; [exact Hd|intros y Hy]. ob; [apply (outs_as_str v), Hy|intros ty Hty].
  ob; [exact Hd|intros z Hz]. ob; [apply outs_as_map, Hz|intros m Hm]. apply outs_ret.
  apply rg_other; [exact I|]. destruct (rok_props v m Hm) as [A B]. split.
  - cbn. intros Hg. destruct (A Hg) as [C [D [E F]]]. rewrite Hid, C, D, E, F. auto.
  - cbn [lens]. constructor; assumption.
Qed.
Lemma outs_path v dec : outs dec (rgood v) -> outs (dec_path dec) (rgood v).
Proof.
  intros Hd. unfold dec_path.
  ob; [exact Hd|intros x Hx]. ob; [apply outs_as_slice, Hx|intros l Hl]. ob; [apply outs_nodes, Hl|intros ns [Hns Hns']].
  ob; [exact Hd|intros y Hy]. ob; [apply outs_as_slice, Hy|intros l2 Hl2]. ob; [apply outs_nodes, Hl2|intros rs [Hrs Hrs']].
  ob; [exact Hd|intros z Hz]. ob; [apply outs_as_slice, Hz|intros l3 Hl3]. ob; [apply (outs_ints v), Hl3|intros sq [Hsq Hsq']].
  apply outs_ret. apply rg_other; [exact I|].
  destruct (rok_list v ns (proj1 Hns) (proj2 Hns)) as [A B].
  destruct (rok_list v rs (proj1 Hrs) (proj2 Hrs)) as [A2 B2]. split.
  - cbn. intros Hg. bsplit. destruct A as [C [D E]]; [assumption|]. destruct A2 as [C2 [D2 E2]]; [assumption|].
    unfold is_node in Hns'. unfold is_urel in Hrs'. rewrite C, D, E, C2, D2, E2, Hns', Hrs', Hsq. auto.
  - cbn [lens]. inversion B; subst. inversion B2; subst. constructor; [assumption|].
    apply Forall_app. split; [assumption|]. constructor; [assumption|]. apply Forall_app. split; [assumption|].
    repeat constructor; apply Hsq'.
Qed.
Lemma outs_record v dec : outs dec (rgood v) -> outs (dec_record dec) (rgood v).
Proof.
  intros Hd. unfold dec_record. ob; [exact Hd|intros x Hx]. ob; [apply outs_as_slice, Hx|intros l Hl].
  apply outs_ret. apply rg_other; [exact I|]. destruct (rok_list v l (proj1 Hl) (proj2 Hl)) as [A B].
  split; [|exact B]. cbn. intros Hg. destruct (A Hg) as [C [D E]]. rewrite E. auto.
Qed.
Lemma outs_success v dec : outs dec (rgood v) -> outs (dec_success dec) (rgood v).
Proof.
  intros Hd. unfold dec_success. ob; [exact Hd|intros x Hx]. ob; [apply outs_as_map, Hx|intros m Hm].
  apply outs_ret. apply rg_other; [exact I|]. destruct (rok_props v m Hm) as [A B].
  split; [|exact B]. cbn. intros Hg. destruct (A Hg) as [C [D [E F]]]. rewrite C, D, E, F. auto.
Qed.
Lemma outs_failure v dec : outs dec (rgood v) -> outs (dec_failure dec) (rgood v).
Proof.
  intros Hd. unfold dec_failure. ob; [exact Hd|intros x Hx]. ob; [apply outs_as_map, Hx|intros m Hm].
  apply outs_ret. apply rg_other; [exact I|]. destruct (rok_props v m Hm) as [A B].
  split; [|exact B]. cbn. intros Hg. destruct (A Hg) as [C [D [E F]]]. rewrite C, D, E, F. auto.
Qed.

Lemma foreign_good v g : (match g with GSlice _ | GMap _ | GStr _ => False | _ => True end) ->
  lens g = [] -> graph_only g = false -> rgood v g.
Proof. intros H1 H2 H3. apply rg_other; [exact H1|]. now apply rok_foreign. Qed.

Ltac foreign Hd :=
  repeat (ob; [first [exact Hd | intros ? ? ? _; exact I]|intros ? _]);
  apply outs_ret; apply foreign_good; [exact I|reflexivity|reflexivity].

Lemma outs_true {A} (p : parser A) : outs p (fun _ => True). Proof. intros b x r _. exact I. Qed.

Lemma outs_struct v tz dec : outs dec (rgood v) -> outs (dec_struct v tz dec) (rgood v).
Proof.
  intros Hd b x r. unfold dec_struct. destruct b as [|sb b]; [discriminate|]. cbv zeta.
  destruct (bz sb =? SigNode); [apply (outs_node v dec Hd)|].
  destruct (bz sb =? SigRel); [apply (outs_rel v dec Hd)|].
  destruct (bz sb =? SigPath); [apply (outs_path v dec Hd)|].
  destruct (bz sb =? SigURel); [apply (outs_urel v dec Hd)|].
  destruct (bz sb =? SigRecord); [apply (outs_record v dec Hd)|].
  destruct (bz sb =? SigFailure); [apply (outs_failure v dec Hd)|].
  destruct (bz sb =? SigIgnored).
  { intros E. injection E as <- <-. apply rg_other; [exact I|]. now apply rok_leaf. }
  destruct (bz sb =? SigSuccess); [apply (outs_success v dec Hd)|].
  destruct (bz sb =? SigDiscardAll).
  { intros E. injection E as <- <-. apply rg_other; [exact I|]. now apply rok_leaf. }
  destruct (bz sb =? SigPullAll).
  { intros E. injection E as <- <-. apply rg_other; [exact I|]. now apply rok_leaf. }
  destruct (bz sb =? SigReset).
  { intros E. injection E as <- <-. apply rg_other; [exact I|]. now apply rok_leaf. }
  destruct v; [discriminate|].
  assert (F : forall p : parser gval, outs p (fun g => match g with GSlice _ | GMap _ | GStr _ => False | _ => True end
                                            /\ lens g = [] /\ graph_only g = false) -> outs p (rgood V2)).
  { intros p Hp b' x' r' E. apply Hp in E. destruct E as [E1 [E2 E3]]. now apply foreign_good. }
  Ltac fo := repeat (ob; [apply outs_true|intros ? _]); apply outs_ret; cbn; auto.
  destruct (bz sb =? SigPoint2D); [apply F; unfold dec_point2d; fo|].
  destruct (bz sb =? SigPoint3D); [apply F; unfold dec_point3d; fo|].
  destruct (bz sb =? SigDate); [apply F; unfold dec_date; fo|].
  destruct (bz sb =? SigTime); [apply F; unfold dec_time; fo|].
  destruct (bz sb =? SigLocalTime); [apply F; unfold dec_localtime; fo|].
  destruct (bz sb =? SigLocalDateTime); [apply F; unfold dec_localdatetime; fo|].
  destruct (bz sb =? SigDateTimeOffset).
  { apply F; unfold dec_datetime_offset. repeat (ob; [apply outs_true|intros ? _]).
    destruct (time_unix _ _) as [s1 n1]. destruct (time_add _ _ _) as [s2 n2]. apply outs_ret; cbn; auto. }
  destruct (bz sb =? SigDateTimeZoneId).
  { apply F; unfold dec_datetime_zone. do 5 (ob; [apply outs_true|intros ? _]).
    ob; [apply outs_true|intros id _].
    destruct (tz id); [|apply outs_err].
    destruct (time_unix _ _) as [s1 n1]. destruct (time_add _ _ _) as [s2 n2]. apply outs_ret; cbn; auto. }
  destruct (bz sb =? SigDuration); [apply F; unfold dec_duration; fo|discriminate].
Qed.

Lemma leaf_good v g : (match g with GSlice _ | GMap _ | GStr _ => False | _ => True end) ->
  lens g = [] -> go_typed g = true -> plain v g = true -> rcv g = g -> rgood v g.
Proof. intros. apply rg_other; [assumption|]. now apply rok_leaf. Qed.

Lemma int_good v z : is_int64 z = true -> rgood v (GInt KInt64 z).
Proof.
  intros H. apply is_int64_iff in H. apply leaf_good; try reflexivity.
  - cbn. unfold in_kind. cbn. lia.
  - cbn [plain]. change (2 ^ 63) with 9223372036854775808. lia.
Qed.

Lemma outs_body v tz dec : outs dec (rgood v) -> outs (dec_body v tz dec) (rgood v).
Proof.
  intros Hd b x r. unfold dec_body. destruct b as [|mb b]; [discriminate|]. cbv zeta.
  pose proof (bz_range mb) as Hmb.
  assert (I : forall k, (k <= 8)%nat -> (0 < k)%nat -> outs (x <- read_int k;; pret (GInt KInt64 x)) (rgood v)).
  { intros k H1 H2. ob; [apply outs_read_int; assumption|]. intros a Ha. apply outs_ret. now apply int_good. }
  assert (S : forall k, (k <= 4)%nat -> (0 < k)%nat -> outs (n <- read_size k;; pstr n) (rgood v)).
  { intros k H1 H2. ob; [apply outs_read_size; assumption|]. intros a Ha. now apply outs_pstr. }
  assert (SL : forall k, (k <= 4)%nat -> (0 < k)%nat -> outs (n <- read_size k;; dec_slice dec n) (rgood v)).
  { intros k H1 H2. ob; [apply outs_read_size; assumption|]. intros a Ha. now apply outs_slice. }
  assert (MP : forall k, (k <= 4)%nat -> (0 < k)%nat -> outs (n <- read_size k;; dec_map dec n) (rgood v)).
  { intros k H1 H2. ob; [apply outs_read_size; assumption|]. intros a Ha. now apply outs_map. }
  assert (ST : forall k, outs (n <- read_size k;; dec_struct v tz dec) (rgood v)).
  { intros k. ob; [apply outs_true|]. intros a Ha. now apply outs_struct. }
  assert (L : forall g, rgood v g -> Ok (g, b) = Ok (x, r) -> rgood v x) by (intros g Hg E; injection E as <- <-; exact Hg).
  destruct (bz mb =? NilMarker); [apply L; now apply leaf_good|].
  destruct (bz mb =? TrueMarker); [apply L; now apply leaf_good|].
  destruct (bz mb =? FalseMarker); [apply L; now apply leaf_good|].
  destruct ((int8 (bz mb) >=? -16) && (int8 (bz mb) <=? 127)) eqn:E8.
  { apply L. apply int_good. apply is_int64_iff. lia. }
  destruct (bz mb =? Int8Marker); [apply I; lia|].
  destruct (bz mb =? Int16Marker); [apply I; lia|].
  destruct (bz mb =? Int32Marker); [apply I; lia|].
  destruct (bz mb =? Int64Marker); [apply I; lia|].
  destruct (bz mb =? FloatMarker).
  { ob; [apply outs_read_be8|]. intros a Ha. apply outs_ret. apply leaf_good; auto. }
  destruct ((bz mb >=? TinyStringMarker) && (bz mb <=? TinyStringMarker + 15)).
  { destruct (bz mb - TinyStringMarker =? 0).
    - apply L. constructor. unfold small. cbn. lia.
    - apply outs_pstr. unfold TinyStringMarker. lia. }
  destruct (bz mb =? String8Marker); [apply S; lia|].
  destruct (bz mb =? String16Marker); [apply S; lia|].
  destruct (bz mb =? String32Marker); [apply S; lia|].
  destruct ((bz mb >=? TinySliceMarker) && (bz mb <=? TinySliceMarker + 15)).
  { apply outs_slice; [assumption|]. unfold TinySliceMarker. lia. }
  destruct (bz mb =? Slice8Marker); [apply SL; lia|].
  destruct (bz mb =? Slice16Marker); [apply SL; lia|].
  destruct (bz mb =? Slice32Marker); [apply SL; lia|].
  destruct ((bz mb >=? TinyMapMarker) && (bz mb <=? TinyMapMarker + 15)).
  { apply outs_map; [assumption|]. unfold TinyMapMarker. lia. }
  destruct (bz mb =? Map8Marker); [apply MP; lia|].
  destruct (bz mb =? Map16Marker); [apply MP; lia|].
  destruct (bz mb =? Map32Marker); [apply MP; lia|].
  destruct ((bz mb >=? TinyStructMarker) && (bz mb <=? TinyStructMarker + 15)).
  { now apply outs_struct. }
  destruct (bz mb =? Struct8Marker); [apply ST|].
  destruct (bz mb =? Struct16Marker); [apply ST|]. discriminate.
Qed.

Theorem decode_outputs v tz b g r : decode v tz b = Ok (g, r) -> rok v g.
Proof.
  assert (C : forall n, outs (decode_fuel v tz n) (rgood v)).
  { induction n as [|n IH]; cbn [decode_fuel]; [intros b' x' r' H; discriminate|]. now apply outs_body. }
  intros H. apply rgood_rok. eapply C; eauto.
Qed.

Theorem received_again v tz b g r : decode v tz b = Ok (g, r) -> graph_only g = true ->
  snd (encode v g) = None
  /\ (forallb (size_ok signed_limits) (lens g) = true ->
      decode v tz (payload v g) = Ok (g, [])).
Proof.
  intros H Hg. destruct (decode_outputs v tz b g r H) as [Hr Hl]. destruct (Hr Hg) as [H1 [H2 H3]]. split.
  - apply encode_accepts; [assumption|]. split; [now apply plain_supported|]. split; [|now apply (plain_struct_sizes v)].
    apply forallb_forall. intros n Hn. rewrite Forall_forall in Hl. apply Hl in Hn. unfold small in Hn.
    apply size_ok_format. lia.
  - intros Hs. destruct (encode_decode v tz g [] H1 H2 Hs) as [_ Hd]. rewrite app_nil_r in Hd.
    rewrite H3 in Hd. exact Hd.
Qed.
