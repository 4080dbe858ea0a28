(** Exactly how encoding a value held by reference ends: C130. *)
From Coq Require Import ZArith List Bool Lia ZifyBool.
From Verif Require Import Bytes BytesFacts GoVal GoErr Encoder SpecValues SpecRefuse RefuseFacts Refs SpecRefs RefsFacts.
Import ListNotations.
Open Scope Z_scope.

Lemma of_end w : snd (of_wseq w) = verdict (snd w). Proof. destruct w as [a [e|]]; reflexivity. Qed.
Lemma then_end a b : snd (t_then a b) = match snd a with EndOk => snd b | en => en end.
Proof. destruct a as [a []]; reflexivity. Qed.
Lemma wrapped a : snd (t_wrap a) = in_struct (snd a). Proof. destruct a as [a []]; reflexivity. Qed.
Lemma key_end k : snd (of_wseq (enc_str k)) = if zlen k <=? four_bytes then EndOk else EndErr (ENew TStringTooLong).
Proof.
  rewrite of_end. pose proof (str_first 0 k) as H. unfold too_many, deep in H. destruct (snd (enc_str k)), (zlen k <=? four_bytes); cbn in H |- *; congruence.
Qed.
Lemma slice_end {A} (l : list A) : snd (of_wseq (slice_hdr (zlen l))) = if zlen l <=? four_bytes then EndOk else EndErr (ENew TSliceTooLong).
Proof.
  rewrite of_end. pose proof (slice_first 0 (zlen l) (zlen_nonneg l)) as H. unfold too_many, deep in H. destruct (snd (slice_hdr (zlen l))), (zlen l <=? four_bytes); cbn in H |- *; congruence.
Qed.
Lemma map_end {A} (l : list A) : snd (of_wseq (map_hdr (zlen l))) = if zlen l <=? four_bytes then EndOk else EndErr (ENew TMapTooLong).
Proof.
  rewrite of_end. pose proof (map_first 0 (zlen l) (zlen_nonneg l)) as H. unfold too_many, deep in H. destruct (snd (map_hdr (zlen l))), (zlen l <=? four_bytes); cbn in H |- *; congruence.
Qed.
Lemma struct_end {A} (l : list A) : snd (of_wseq (struct_hdr (zlen l))) = if zlen l <=? 65535 then EndOk else EndErr (ENew TStructTooLong).
Proof.
  rewrite of_end. pose proof (struct_first 0 (zlen l) (zlen_nonneg l)) as H. unfold too_many, deep in H. destruct (snd (struct_hdr (zlen l))), (zlen l <=? 65535); cbn in H |- *; congruence.
Qed.
Lemma fields_all w l : snd (walk_fields w l) = in_struct (snd (walk_all w l)).
Proof.
  induction l as [|n l IH]; [reflexivity|]. cbn [walk_fields walk_all]. fold (walk_fields w) (walk_all w). rewrite !then_end, wrapped, IH. now destruct (snd (w n)).
Qed.
Lemma in_struct_deep en : in_struct en = EndDeep <-> en = EndDeep. Proof. destruct en; split; cbn; congruence. Qed.

(** ** What fares in some way is walked to that end *)
Lemma fares_walk v h : typed_heap h ->
  (forall n en, fares v h n en -> en <> EndDeep /\ exists k, forall d, (k <= d)%nat -> snd (walk v h d n) = en)
  /\ (forall l en, fares_all v h l en -> en <> EndDeep /\ exists k, forall d, (k <= d)%nat -> snd (walk_all (walk v h d) l) = en)
  /\ (forall m en, fares_entries v h m en -> en <> EndDeep /\ exists k, forall d, (k <= d)%nat -> snd (walk_entries (walk v h d) m) = en).
Proof.
  intros T. apply fares_ind3.
  - intros n x E. split; [unfold verdict; destruct first_reported; discriminate|]. exists 1%nat. intros [|d] Hd; [lia|]. cbn [walk]. rewrite E, of_end, refused_first by exact (T n x E). reflexivity.
  - intros n E. split; [discriminate|]. exists 1%nat. intros [|d] Hd; [lia|]. cbn [walk]. now rewrite E.
  - intros n l en E L _ (D & k & K). split; [exact D|]. exists (S k). intros [|d] Hd; [lia|]. cbn [walk].
    assert (W : snd (t_then (of_wseq (slice_hdr (zlen l))) (walk_all (walk v h d) l)) = en).
    { rewrite then_end, slice_end. destruct (zlen l <=? four_bytes) eqn:Q; [apply K; lia|lia]. }
    destruct E as [-> | ->]; exact W.
  - intros n l E L. split; [discriminate|]. exists 1%nat. intros [|d] Hd; [lia|]. cbn [walk].
    assert (W : snd (t_then (of_wseq (slice_hdr (zlen l))) (walk_all (walk v h d) l)) = EndErr (ENew TSliceTooLong)).
    { rewrite then_end, slice_end. destruct (zlen l <=? four_bytes) eqn:Q; [lia|reflexivity]. }
    destruct E as [-> | ->]; exact W.
  - intros n m en E L _ (D & k & K). split; [exact D|]. exists (S k). intros [|d] Hd; [lia|]. cbn [walk]. rewrite E, then_end, map_end.
    destruct (zlen m <=? four_bytes) eqn:Q; [apply K; lia|lia].
  - intros n m E L. split; [discriminate|]. exists 1%nat. intros [|d] Hd; [lia|]. cbn [walk]. rewrite E, then_end, map_end.
    destruct (zlen m <=? four_bytes) eqn:Q; [lia|reflexivity].
  - intros n sig l en E L _ (D & k & K). split; [now rewrite in_struct_deep|]. exists (S k). intros [|d] Hd; [lia|]. cbn [walk]. rewrite E, then_end, struct_end.
    destruct (zlen l <=? 65535) eqn:Q; [|lia]. rewrite then_end. cbn [snd]. rewrite fields_all, K by lia. reflexivity.
  - intros n sig l E L. split; [discriminate|]. exists 1%nat. intros [|d] Hd; [lia|]. cbn [walk]. rewrite E, then_end, struct_end.
    destruct (zlen l <=? 65535) eqn:Q; [lia|reflexivity].
  - split; [discriminate|]. exists 0%nat. reflexivity.
  - intros n l en _ (D & k & K) N. split; [exact D|]. exists k. intros d Hd. cbn [walk_all]. rewrite then_end, (K d Hd). destruct en; try reflexivity. now elim N.
  - intros n l en _ (_ & k & K) _ (D & k' & K'). split; [exact D|]. exists (Nat.max k k'). intros d Hd. cbn [walk_all]. fold (walk_all (walk v h d)).
    rewrite then_end, (K d ltac:(lia)). apply K'. lia.
  - split; [discriminate|]. exists 0%nat. reflexivity.
  - intros k n m L. split; [discriminate|]. exists 0%nat. intros d _. cbn [walk_entries]. rewrite then_end, key_end. destruct (zlen k <=? four_bytes) eqn:Q; [lia|reflexivity].
  - intros k n m en L _ (D & j & K) N. split; [exact D|]. exists j. intros d Hd. cbn [walk_entries]. rewrite then_end, key_end. destruct (zlen k <=? four_bytes) eqn:Q; [|lia].
    rewrite then_end, (K d Hd). destruct en; try reflexivity. now elim N.
  - intros k n m en L _ (_ & j & K) _ (D & j' & K'). split; [exact D|]. exists (Nat.max j j'). intros d Hd. cbn [walk_entries]. fold (walk_entries (walk v h d)).
    rewrite then_end, key_end. destruct (zlen k <=? four_bytes) eqn:Q; [|lia]. rewrite then_end, (K d ltac:(lia)). apply K'. lia.
Qed.
(** ** A walk that ends has fared that way *)
Lemma walk_fares v h : typed_heap h -> forall d n, snd (walk v h d n) <> EndDeep -> fares v h n (snd (walk v h d n)).
Proof.
  intros T. induction d as [|d IH]; intros n H; [now elim H|].
  assert (A : forall l, snd (walk_all (walk v h d) l) <> EndDeep -> fares_all v h l (snd (walk_all (walk v h d) l))).
  { induction l as [|m l IL]; [constructor|]. cbn [walk_all]. fold (walk_all (walk v h d)). rewrite then_end. specialize (IH m).
    destruct (snd (walk v h d m)) eqn:E; intros N.
    - apply fa_on; [apply IH; discriminate|now apply IL].
    - apply fa_stop; [apply IH; discriminate|discriminate].
    - apply fa_stop; [apply IH; discriminate|discriminate].
    - now elim N. }
  assert (M : forall l, snd (walk_entries (walk v h d) l) <> EndDeep -> fares_entries v h l (snd (walk_entries (walk v h d) l))).
  { induction l as [|[k m] l IL]; [constructor|]. cbn [walk_entries]. fold (walk_entries (walk v h d)). rewrite then_end, key_end. specialize (IH m).
    destruct (zlen k <=? four_bytes) eqn:Q; [|intros _; apply fe_long; lia]. rewrite then_end.
    destruct (snd (walk v h d m)) eqn:E; intros N.
    - apply fe_on; [lia|apply IH; discriminate|now apply IL].
    - apply fe_stop; [lia|apply IH; discriminate|discriminate].
    - apply fe_stop; [lia|apply IH; discriminate|discriminate].
    - now elim N. }
  assert (S1 : forall l, cell_at h n = CSlice l \/ cell_at h n = CTSlice l ->
    let t := t_then (of_wseq (slice_hdr (zlen l))) (walk_all (walk v h d) l) in snd t <> EndDeep -> fares v h n (snd t)).
  { intros l E t. unfold t. rewrite then_end, slice_end. destruct (zlen l <=? four_bytes) eqn:Q; intros N.
    - apply (fr_slice v h n l _ E); [lia|now apply A].
    - apply (fr_slice_long v h n l E). lia. }
  cbn [walk] in *. destruct (cell_at h n) as [x|l|l|m|sig l|] eqn:C.
  - rewrite of_end, refused_first by exact (T n x C). now apply fr_leaf.
  - apply S1; auto.
  - apply S1; auto.
  - revert H. rewrite then_end, map_end. destruct (zlen m <=? four_bytes) eqn:Q; intros N.
    + apply (fr_map v h n m _ C); [lia|now apply M].
    + apply (fr_map_long v h n m C). lia.
  - revert H. rewrite then_end, struct_end. destruct (zlen l <=? 65535) eqn:Q; [|intros _; apply (fr_struct_long v h n sig l C); lia].
    rewrite then_end. cbn [snd]. rewrite fields_all. intros N. apply (fr_struct v h n sig l _ C); [lia|]. apply A. now rewrite <- in_struct_deep.
  - now apply fr_nil.
Qed.
(** ** On a working link the walk decides *)
Lemma write_works w p : w_left w = None -> w_left (fst (w_write w p)) = None /\ snd (w_write w p) = None.
Proof. intros H. unfold w_write. rewrite H. split; reflexivity. Qed.
Lemma enc_write_works e p : w_left (e_w e) = None -> w_left (e_w (fst (enc_write e p))) = None /\ snd (enc_write e p) = None.
Proof.
  intros H. unfold enc_write. destruct (zlen (e_buf e ++ p) >=? e_chunk e); [|split; [exact H|reflexivity]].
  unfold w_write. rewrite H. cbn. split; reflexivity.
Qed.
Lemma run_works ws : forall e, w_left (e_w e) = None -> w_left (e_w (fst (run_writes e ws))) = None /\ snd (run_writes e ws) = None.
Proof.
  induction ws as [|p ws IH]; intros e H; [split; [exact H|reflexivity]|]. cbn [run_writes]. destruct (enc_write_works e p H) as [A B].
  destruct (enc_write e p) as [e' r]. cbn in A, B. subst r. now apply IH.
Qed.
Lemma flush_works e : w_left (e_w e) = None -> snd (flush e) = None.
Proof. intros H. unfold flush. destruct (zlen (e_buf e) >? 0); unfold w_write; rewrite H; reflexivity. Qed.
Lemma working v e h d n : w_left (e_w e) = None -> snd (encode_refs v e h d n) = snd (walk v h d n).
Proof.
  intros H. unfold encode_refs. destruct (walk v h d n) as [ws en]. destruct (run_works ws e H) as [A B]. destruct (run_writes e ws) as [e1 r]. cbn in A, B. subst r.
  pose proof (flush_works e1 A) as F. destruct en; try reflexivity. destruct (flush e1) as [e2 r2]. cbn in F. now subst r2.
Qed.
Theorem ends_as_fares v e h n : typed_heap h -> w_left (e_w e) = None ->
  (forall en, fares v h n en <-> en <> EndDeep /\ exists k, forall d, (k <= d)%nat -> snd (encode_refs v e h d n) = en)
  /\ ((forall d, snd (encode_refs v e h d n) = EndDeep) <-> ~ exists en, fares v h n en).
Proof.
  intros T W. setoid_rewrite working; [|exact W..]. split.
  - intros en. split; [apply (proj1 (fares_walk v h T))|]. intros (D & k & K). specialize (K k (le_n k)). rewrite <- K. apply walk_fares; [exact T|congruence].
  - split.
    + intros H (en & F). destruct (proj1 (fares_walk v h T) n en F) as (D & k & K). specialize (K k (le_n k)). rewrite H in K. congruence.
    + intros H d. destruct (snd (walk v h d n)) eqn:E; try reflexivity; elim H; eexists; apply (walk_fares v h T d n); congruence.
Qed.
(** On a link that fails, what fares in some way ends that way or with the error of the link. *)
Theorem ends_on_any_link v e h n en : typed_heap h -> fares v h n en ->
  exists k, forall d, (k <= d)%nat -> snd (encode_refs v e h d n) = en \/ exists err, snd (encode_refs v e h d n) = EndErr err.
Proof.
  intros T F. destruct (proj1 (fares_walk v h T) n en F) as (D & k & K). exists k. intros d Hd. specialize (K d Hd). unfold encode_refs.
  destruct (walk v h d n) as [ws en']. cbn in K. subst en'. destruct (run_writes e ws) as [e1 [r|]]; [right; now exists r|].
  destruct en; try (left; reflexivity). destruct (flush e1) as [e2 [r2|]]; [right; now exists r2|now left].
Qed.
Definition has_bytes (p : bytes) : bool := match p with [] => false | _ => true end.
Definition heavy (ws : list bytes) : nat := length (filter has_bytes ws).
Lemma heavy_app a b : heavy (a ++ b) = (heavy a + heavy b)%nat.
Proof. unfold heavy. now rewrite filter_app, app_length. Qed.
Lemma then_heavy a b : (heavy (fst a) <= heavy (fst (t_then a b)))%nat.
Proof. unfold t_then. destruct (snd a); cbn [fst]; rewrite ?heavy_app; lia. Qed.
Lemma then_heavy_both a b : snd a = EndOk -> heavy (fst (t_then a b)) = (heavy (fst a) + heavy (fst b))%nat.
Proof. unfold t_then. intros ->. cbn [fst]. apply heavy_app. Qed.
Lemma wrap_fst a : fst (t_wrap a) = fst a. Proof. destruct a as [a []]; reflexivity. Qed.
Lemma slice_heavy n : snd (slice_hdr n) = None -> (1 <= heavy (fst (slice_hdr n)))%nat.
Proof. unfold slice_hdr. repeat match goal with |- context [if ?b then _ else _] => destruct b end; cbn; try discriminate; intros _; lia. Qed.
Lemma map_heavy n : snd (map_hdr n) = None -> (1 <= heavy (fst (map_hdr n)))%nat.
Proof. unfold map_hdr. repeat match goal with |- context [if ?b then _ else _] => destruct b end; cbn; try discriminate; intros _; lia. Qed.
Lemma struct_heavy n : snd (struct_hdr n) = None -> (1 <= heavy (fst (struct_hdr n)))%nat.
Proof. unfold struct_hdr. repeat match goal with |- context [if ?b then _ else _] => destruct b end; cbn; try discriminate; intros _; lia. Qed.
Lemma verdict_ok o : verdict o = EndOk -> o = None. Proof. destruct o; [discriminate|reflexivity]. Qed.
(** A walk that does not fit on a stack of [d] calls has made [d] writes by then. *)
Lemma deep_heavy v h : forall d n, snd (walk v h d n) = EndDeep -> (d <= heavy (fst (walk v h d n)))%nat.
Proof.
  induction d as [|d IH]; intros n H; [lia|].
  assert (A : forall l, snd (walk_all (walk v h d) l) = EndDeep -> (d <= heavy (fst (walk_all (walk v h d) l)))%nat).
  { induction l as [|m l IL]; [discriminate|]. cbn [walk_all]. fold (walk_all (walk v h d)). rewrite then_end. destruct (snd (walk v h d m)) eqn:E; try discriminate; intros N.
    - rewrite then_heavy_both by exact E. specialize (IL N). lia.
    - specialize (IH m E). pose proof (then_heavy (walk v h d m) (walk_all (walk v h d) l)). lia. }
  assert (F : forall l, fst (walk_fields (walk v h d) l) = fst (walk_all (walk v h d) l)).
  { induction l as [|m l IL]; [reflexivity|]. cbn [walk_all walk_fields]. fold (walk_all (walk v h d)) (walk_fields (walk v h d)).
    unfold t_then. rewrite wrapped. destruct (snd (walk v h d m)); cbn [in_struct fst]; rewrite ?wrap_fst, ?IL; reflexivity. }
  assert (M : forall l, snd (walk_entries (walk v h d) l) = EndDeep -> (d <= heavy (fst (walk_entries (walk v h d) l)))%nat).
  { induction l as [|[k m] l IL]; [discriminate|]. cbn [walk_entries]. fold (walk_entries (walk v h d)). rewrite then_end.
    destruct (snd (of_wseq (enc_str k))) eqn:E; try discriminate; [|pose proof (of_wseq_returned (enc_str k)) as R; rewrite E in R; destruct R].
    rewrite then_heavy_both by exact E. rewrite then_end.
    destruct (snd (walk v h d m)) eqn:E1; try discriminate; intros N.
    - rewrite then_heavy_both by exact E1. specialize (IL N). lia.
    - specialize (IH m E1). pose proof (then_heavy (walk v h d m) (walk_entries (walk v h d) l)). lia. }
  assert (G : forall w t, snd (t_then (of_wseq w) t) = EndDeep -> (snd w = None -> 1 <= heavy (fst w))%nat -> (snd t = EndDeep -> d <= heavy (fst t))%nat ->
    (S d <= heavy (fst (t_then (of_wseq w) t)))%nat).
  { intros w t E P Q. rewrite then_end, of_end in E. destruct (snd w) eqn:Ew; [discriminate|]. cbn in E.
    rewrite then_heavy_both by now rewrite of_end, Ew. cbn [of_wseq fst]. specialize (P eq_refl). specialize (Q E). lia. }
  cbn [walk] in *. destruct (cell_at h n) as [x|l|l|m|sig l|] eqn:C.
  - pose proof (of_wseq_returned (encode v x)) as R. rewrite H in R. destruct R.
  - apply (G _ _ H); [apply slice_heavy|apply A].
  - apply (G _ _ H); [apply slice_heavy|apply A].
  - apply (G _ _ H); [apply map_heavy|apply M].
  - apply (G _ _ H); [apply struct_heavy|]. rewrite then_end. cbn [snd]. rewrite fields_all, in_struct_deep. intros N. specialize (A l N).
    rewrite then_heavy_both by reflexivity. rewrite F. lia.
  - discriminate.
Qed.
(** A link that carries [k] more bytes carries only so many writes. *)
Definition strength (e : encoder) (k : nat) : Z := Z.of_nat k * (Z.max 0 (e_chunk e) + 1) + Z.max 0 (e_chunk e - zlen (e_buf e)).
Lemma write_spends w k p : w_left w = Some k -> snd (w_write w p) = None -> w_left (fst (w_write w p)) = Some (k - length p)%nat /\ (length p <= k)%nat.
Proof. intros W. unfold w_write. rewrite W. destruct (Nat.leb (length p) k) eqn:L; [|discriminate]. intros _. apply Nat.leb_le in L. split; [reflexivity|exact L]. Qed.
Lemma write_wears e k p : w_left (e_w e) = Some k -> snd (enc_write e p) = None ->
  exists k', w_left (e_w (fst (enc_write e p))) = Some k' /\ 0 <= strength (fst (enc_write e p)) k'
  /\ strength (fst (enc_write e p)) k' + (if has_bytes p then 1 else 0) <= strength e k.
Proof.
  intros W. unfold enc_write, strength. pose proof (zlen_nonneg (e_buf e)) as B. assert (P : zlen p = 0 /\ p = [] \/ 1 <= zlen p /\ has_bytes p = true).
  { destruct p; [left; split; reflexivity|right]. rewrite zlen_cons. pose proof (zlen_nonneg p). split; [lia|reflexivity]. }
  destruct (zlen (e_buf e ++ p) >=? e_chunk e) eqn:Q.
  - pose proof (write_spends (e_w e) k (be 2 (e_chunk e)) W) as S1. destruct (w_write (e_w e) (be 2 (e_chunk e))) as [w1 [r|]]; [discriminate|]. destruct (S1 eq_refl) as [W1 L1]. clear S1. cbn [fst] in W1.
    change (length (be 2 (e_chunk e))) with 2%nat in *. set (c := firstn (Z.to_nat (e_chunk e)) (e_buf e ++ p)).
    pose proof (write_spends w1 (k - 2) c W1) as S2. destruct (w_write w1 c) as [w2 [r|]]; [discriminate|]. destruct (S2 eq_refl) as [W2 L2]. clear S2. cbn [fst] in W2.
    cbn [fst snd e_w e_chunk e_buf]. intros _. exists (k - 2 - length c)%nat. split; [exact W2|].
    set (b' := skipn _ _). pose proof (zlen_nonneg b'). set (C := Z.max 0 (e_chunk e)). assert (0 <= C) by lia.
    assert (Z.max 0 (e_chunk e - zlen b') <= C) by lia. assert (Z.of_nat (k - 2 - length c) <= Z.of_nat k - 2) by lia.
    assert (0 <= Z.of_nat (k - 2 - length c)) by lia. split; [nia|]. destruct (has_bytes p); nia.
  - cbn [fst snd e_w w_left e_chunk e_buf]. intros _. exists k. split; [exact W|]. rewrite zlen_app in Q |- *. split; [nia|]. destruct P as [[P ->]|[P ->]]; cbn [has_bytes]; lia.
Qed.
Lemma run_wears ws : forall e k, w_left (e_w e) = Some k -> snd (run_writes e ws) = None -> Z.of_nat (heavy ws) <= strength e k.
Proof.
  induction ws as [|p ws IH]; intros e k W H; [unfold strength, heavy; cbn [filter length]; nia|]. cbn [run_writes] in H.
  pose proof (write_wears e k p W) as D. destruct (enc_write e p) as [e' [r|]]; [discriminate|]. destruct (D eq_refl) as (k' & W' & _ & L). cbn [fst] in W', L.
  specialize (IH e' k' W' H). change (heavy (p :: ws)) with (length (filter has_bytes (p :: ws))). cbn [filter]. destruct (has_bytes p); cbn [length]; unfold heavy in IH; lia.
Qed.
Theorem dying_ends v e h n k : w_left (e_w e) = Some k -> exists D, forall d, (D <= d)%nat -> snd (encode_refs v e h d n) <> EndDeep.
Proof.
  intros W. exists (S (Z.to_nat (strength e k))). intros d Hd. pose proof (deep_heavy v h d n) as DH. pose proof (run_wears (fst (walk v h d n)) e k W) as RW. unfold encode_refs.
  destruct (walk v h d n) as [ws en]. cbn [fst snd] in *. destruct (run_writes e ws) as [e1 [r|]]; [discriminate|]. specialize (RW eq_refl).
  destruct en; try discriminate.
  - destruct (flush e1) as [e2 [r2|]]; discriminate.
  - specialize (DH eq_refl). exfalso. lia.
Qed.
(** A list that contains itself after something that cannot be sent, and the same list the other way round. *)
Definition refused_first_heap : heap := [CSlice [1%nat; 0%nat]; CStruct 78 [2%nat; 0%nat]; CLeaf GOther].
Definition refused_late_heap : heap := [CSlice [0%nat; 1%nat]; CLeaf GOther].
Lemma refused_first_endless : ~ finite_at refused_first_heap 0.
Proof.
  intros H. assert (G : forall n, finite_at refused_first_heap n -> n <> 0%nat).
  { intros n F. induction F as [n _ IH]. intros ->. exact (IH 0%nat (or_intror (or_introl eq_refl)) eq_refl). }
  exact (G 0%nat H eq_refl).
Qed.
Lemma refused_first_fares v : fares v refused_first_heap 0 (EndErr (EWrap (Some (ENew TUnrecognizedType)) 0)).
Proof.
  apply (fr_slice _ _ _ [1%nat; 0%nat]); [now left|discriminate|]. apply fa_stop; [|discriminate].
  apply (fr_struct _ _ _ 78 [2%nat; 0%nat] (EndErr (ENew TUnrecognizedType))); [reflexivity|discriminate|]. apply fa_stop; [|discriminate].
  exact (fr_leaf v refused_first_heap 2 GOther eq_refl).
Qed.
Lemma heaps_typed : typed_heap refused_first_heap /\ typed_heap refused_late_heap.
Proof. split; intros [|[|[|[|n]]]] x E; inversion E; reflexivity. Qed.
Lemma refused_late_fares v : ~ exists en, fares v refused_late_heap 0 en.
Proof.
  apply (proj2 (ends_as_fares v (new_encoder fresh_writer 16) refused_late_heap 0 (proj2 heaps_typed) eq_refl)).
  intros d. rewrite working by reflexivity. induction d as [|d IH]; [reflexivity|]. cbn [walk refused_late_heap cell_at nth]. rewrite then_end. cbn [walk_all].
  change (snd (of_wseq (slice_hdr (zlen [0%nat; 1%nat])))) with EndOk. cbn iota. rewrite then_end, IH. reflexivity.
Qed.
