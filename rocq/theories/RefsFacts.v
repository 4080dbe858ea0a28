(** Encoding values held by reference: C130. *)
From Coq Require Import ZArith List Bool Lia ZifyBool.
From Verif Require Import Bytes BytesFacts GoVal GoErr Encoder Refs SpecRefs.
Import ListNotations.
Open Scope Z_scope.

(** ** Trees are encoded as in Encoder.v *)
Definition enc_all : list pv -> wseq := fix all l := match l with [] => w_ok [] | x :: l' => w_then (enc x) (all l') end.
Definition enc_fields : list pv -> wseq := fix all l := match l with [] => w_ok [] | x :: l' => w_then (w_wrap (enc x)) (all l') end.
Definition enc_entries : list (bytes * pv) -> wseq :=
  fix all l := match l with [] => w_ok [] | (k, x) :: l' => w_then (enc_str k) (w_then (enc x) (all l')) end.
Lemma of_then a b : of_wseq (w_then a b) = t_then (of_wseq a) (of_wseq b).
Proof. destruct a as [a [e|]], b as [b [f|]]; reflexivity. Qed.
Lemma of_wrap a : of_wseq (w_wrap a) = t_wrap (of_wseq a).
Proof. destruct a as [a [e|]]; reflexivity. Qed.
Lemma of_ok l : of_wseq (w_ok l) = (l, EndOk). Proof. reflexivity. Qed.
Lemma trees v h :
  (forall n x, stands h n x -> exists k, forall d, (k <= d)%nat -> walk v h d n = of_wseq (encode v x))
  /\ (forall l xs, stand_all h l xs -> length l = length xs /\ exists k, forall d, (k <= d)%nat ->
       walk_all (walk v h d) l = of_wseq (enc_all (map (lower v) xs)) /\ walk_fields (walk v h d) l = of_wseq (enc_fields (map (lower v) xs)))
  /\ (forall m ms, stand_entries h m ms -> length m = length ms /\ exists k, forall d, (k <= d)%nat ->
       walk_entries (walk v h d) m = of_wseq (enc_entries (map (fun kv => (fst kv, lower v (snd kv))) ms))).
Proof.
  assert (ZL : forall A B (l : list A) (l' : list B), length l = length l' -> zlen l = zlen l') by (intros; unfold zlen; congruence).
  apply stands_all_ind.
  - intros n x E. exists 1%nat. intros [|d] Hd; [lia|]. cbn [walk]. now rewrite E.
  - intros n l xs E _ (L & k & K). exists (S k). intros [|d] Hd; [lia|]. cbn [walk]. rewrite E. destruct (K d ltac:(lia)) as [K1 _]. rewrite K1.
    change (encode v (GSlice xs)) with (w_then (slice_hdr (zlen (map (lower v) xs))) (enc_all (map (lower v) xs))). rewrite of_then. do 3 f_equal. apply ZL. now rewrite map_length.
  - intros n l xs E _ (L & k & K). exists (S k). intros [|d] Hd; [lia|]. cbn [walk]. rewrite E. destruct (K d ltac:(lia)) as [K1 _]. rewrite K1.
    change (encode v (GTSlice xs)) with (w_then (slice_hdr (zlen (map (lower v) xs))) (enc_all (map (lower v) xs))). rewrite of_then. do 3 f_equal. apply ZL. now rewrite map_length.
  - intros n m ms E _ (L & k & K). exists (S k). intros [|d] Hd; [lia|]. cbn [walk]. rewrite E. rewrite (K d ltac:(lia)).
    change (encode v (GMap ms)) with (w_then (map_hdr (zlen (map (fun kv => (fst kv, lower v (snd kv))) ms))) (enc_entries (map (fun kv => (fst kv, lower v (snd kv))) ms))).
    rewrite of_then. do 3 f_equal. apply ZL. now rewrite map_length.
  - intros n sig l xs E _ (L & k & K). exists (S k). intros [|d] Hd; [lia|]. cbn [walk]. rewrite E. destruct (K d ltac:(lia)) as [_ K1]. rewrite K1.
    change (encode v (GStructure sig xs)) with (w_then (struct_hdr (zlen (map (lower v) xs))) (w_then (w_ok [[zb sig]]) (enc_fields (map (lower v) xs)))). rewrite !of_then, of_ok.
    do 3 f_equal. apply ZL. now rewrite map_length.
  - split; [reflexivity|]. exists 0%nat. intros d _. split; reflexivity.
  - intros n l x xs _ (k1 & K1) _ (L & k2 & K2). split; [cbn; now rewrite L|]. exists (Nat.max k1 k2). intros d Hd. destruct (K2 d ltac:(lia)) as [A F].
    cbn [walk_all walk_fields map]. fold (walk_all (walk v h d)) (walk_fields (walk v h d)). rewrite A, F, (K1 d ltac:(lia)).
    split; [symmetry; apply of_then|]. rewrite <- of_wrap. symmetry. apply of_then.
  - split; [reflexivity|]. exists 0%nat. intros d _. reflexivity.
  - intros k n m x ms _ (k1 & K1) _ (L & k2 & K2). split; [cbn; now rewrite L|]. exists (Nat.max k1 k2). intros d Hd. pose proof (K2 d ltac:(lia)) as A.
    cbn [walk_entries map fst snd]. fold (walk_entries (walk v h d)). rewrite A, (K1 d ltac:(lia)). rewrite <- !of_then. reflexivity.
Qed.
Theorem trees_encoded v e h n x : stands h n x -> exists k, forall d, (k <= d)%nat ->
  encode_refs v e h d n = (fst (encoder_encode v e x), match snd (encoder_encode v e x) with None => EndOk | Some err => EndErr err end).
Proof.
  intros S. destruct (proj1 (trees v h) n x S) as (k & K). exists k. intros d Hd. unfold encode_refs, encoder_encode. rewrite (K d Hd).
  destruct (encode v x) as [ws fin]. unfold of_wseq. cbn [fst snd]. destruct (run_writes e ws) as [e1 [r|]]; [reflexivity|].
  destruct fin as [f|]; [reflexivity|]. destruct (flush e1) as [e2 r2]. reflexivity.
Qed.

(** ** What ends and what does not *)
Lemma then_deep a b : snd (t_then a b) = EndDeep -> snd a = EndDeep \/ snd b = EndDeep.
Proof. unfold t_then. destruct a as [a []]; cbn; auto. Qed.
Lemma then_panic a b : snd (t_then a b) = EndPanic -> snd a = EndPanic \/ snd b = EndPanic.
Proof. unfold t_then. destruct a as [a []]; cbn; auto. Qed.
Lemma of_wseq_returned w : returned (snd (of_wseq w)). Proof. destruct w as [l [e|]]; exact I. Qed.
Lemma wrap_end a en : (en = EndDeep \/ en = EndPanic) -> snd (t_wrap a) = en -> snd a = en.
Proof. intros [-> | ->]; destruct a as [a []]; cbn; congruence. Qed.
Lemma all_end (w : nat -> trace) en l : en = EndDeep \/ en = EndPanic -> snd (walk_all w l) = en -> exists n, In n l /\ snd (w n) = en.
Proof.
  intros B. induction l as [|n l IH]; cbn [walk_all]; fold (walk_all w); intros H; [destruct B as [-> | ->]; discriminate|].
  assert (C : snd (w n) = en \/ snd (walk_all w l) = en) by (destruct B as [-> | ->]; [now apply then_deep|now apply then_panic]).
  destruct C as [C|C]; [exists n; split; [now left|exact C]|]. destruct (IH C) as (m & Hm & E). exists m. split; [now right|exact E].
Qed.
Lemma fields_end (w : nat -> trace) en l : en = EndDeep \/ en = EndPanic -> snd (walk_fields w l) = en -> exists n, In n l /\ snd (w n) = en.
Proof.
  intros B. induction l as [|n l IH]; cbn [walk_fields]; fold (walk_fields w); intros H; [destruct B as [-> | ->]; discriminate|].
  assert (C : snd (t_wrap (w n)) = en \/ snd (walk_fields w l) = en) by (destruct B as [-> | ->]; [now apply then_deep|now apply then_panic]).
  destruct C as [C|C]; [exists n; split; [now left|now apply wrap_end]|]. destruct (IH C) as (m & Hm & E). exists m. split; [now right|exact E].
Qed.
Lemma entries_end (w : nat -> trace) en l : en = EndDeep \/ en = EndPanic -> snd (walk_entries w l) = en -> exists n, In n (map snd l) /\ snd (w n) = en.
Proof.
  intros B. induction l as [|[k n] l IH]; cbn [walk_entries]; fold (walk_entries w); intros H; [destruct B as [-> | ->]; discriminate|].
  assert (R := of_wseq_returned (enc_str k)).
  assert (C : snd (w n) = en \/ snd (walk_entries w l) = en).
  { destruct B as [-> | ->].
    - apply then_deep in H as [H|H]; [rewrite H in R; destruct R|]. now apply then_deep.
    - apply then_panic in H as [H|H]; [rewrite H in R; destruct R|]. now apply then_panic. }
  destruct C as [C|C]; [exists n; split; [now left|exact C]|]. destruct (IH C) as (m & Hm & E). exists m. split; [now right|exact E].
Qed.
(** If a walk does not return, it is because of something it refers to, or because of the value itself. *)
Lemma walk_end v h d n en : en = EndDeep \/ en = EndPanic -> snd (walk v h (S d) n) = en ->
  (en = EndPanic /\ cell_at h n = CNilPtr) \/ exists m, refers h n m /\ snd (walk v h d m) = en.
Proof.
  intros B. cbn [walk]. unfold refers. destruct (cell_at h n) as [x|l|l|m|sig l|]; intros H.
  - pose proof (of_wseq_returned (encode v x)) as R. rewrite H in R. destruct B as [-> | ->]; destruct R.
  - pose proof (of_wseq_returned (slice_hdr (zlen l))) as R. right. apply (all_end (walk v h d) en l B).
    destruct B as [-> | ->]; [apply then_deep in H as [H|H]|apply then_panic in H as [H|H]]; try exact H; rewrite H in R; destruct R.
  - pose proof (of_wseq_returned (slice_hdr (zlen l))) as R. right. apply (all_end (walk v h d) en l B).
    destruct B as [-> | ->]; [apply then_deep in H as [H|H]|apply then_panic in H as [H|H]]; try exact H; rewrite H in R; destruct R.
  - pose proof (of_wseq_returned (map_hdr (zlen m))) as R. right. apply (entries_end (walk v h d) en m B).
    destruct B as [-> | ->]; [apply then_deep in H as [H|H]|apply then_panic in H as [H|H]]; try exact H; rewrite H in R; destruct R.
  - pose proof (of_wseq_returned (struct_hdr (zlen l))) as R. right. apply (fields_end (walk v h d) en l B).
    destruct B as [-> | ->]; [apply then_deep in H as [H|H]|apply then_panic in H as [H|H]]; try (rewrite H in R; destruct R);
      [apply then_deep in H as [H|H]|apply then_panic in H as [H|H]]; try discriminate; exact H.
  - left. split; [|reflexivity]. cbn in H. symmetry. exact H.
Qed.
(** Without nil pointers nothing panics. *)
Theorem no_panic v h : forall d n, (forall m, comes_to h n m -> cell_at h m <> CNilPtr) -> snd (walk v h d n) <> EndPanic.
Proof.
  induction d as [|d IH]; intros n H; [discriminate|]. intros E. destruct (walk_end v h d n EndPanic (or_intror eq_refl) E) as [[_ E1]|(m & R & E1)].
  - exact (H n (ct_here h n) E1).
  - clear E. rename E1 into E. apply (IH m) in E; [exact E|]. intros q C. apply H. exact (ct_on h n m q R C).
Qed.
(** A longer stack does not matter to a walk that fits on it. *)
Lemma then_same a a' b b' : (snd a <> EndDeep -> a' = a) -> (snd b <> EndDeep -> b' = b) -> snd (t_then a b) <> EndDeep -> t_then a' b' = t_then a b.
Proof.
  intros A B. unfold t_then. destruct (snd a) eqn:E; cbn [snd].
  - intros H. rewrite A, E by congruence. f_equal; now rewrite B.
  - intros _. rewrite A, E by congruence. reflexivity.
  - intros _. rewrite A, E by congruence. reflexivity.
  - intros H. now elim H.
Qed.
Lemma wrap_same a a' : (snd a <> EndDeep -> a' = a) -> snd (t_wrap a) <> EndDeep -> t_wrap a' = t_wrap a.
Proof. intros A H. rewrite A; [reflexivity|]. intros E. apply H. unfold t_wrap. now rewrite E. Qed.
Lemma deeper v h : forall d d' n, (d <= d')%nat -> snd (walk v h d n) <> EndDeep -> walk v h d' n = walk v h d n.
Proof.
  induction d as [|d IH]; intros d' n Hd H; [now elim H|]. destruct d' as [|d']; [lia|]. specialize (fun m => IH d' m ltac:(lia)).
  assert (A : forall l, snd (walk_all (walk v h d) l) <> EndDeep -> walk_all (walk v h d') l = walk_all (walk v h d) l).
  { induction l as [|m l IL]; [reflexivity|]. cbn [walk_all]. fold (walk_all (walk v h d)) (walk_all (walk v h d')). apply then_same; [apply IH|exact IL]. }
  assert (F : forall l, snd (walk_fields (walk v h d) l) <> EndDeep -> walk_fields (walk v h d') l = walk_fields (walk v h d) l).
  { induction l as [|m l IL]; [reflexivity|]. cbn [walk_fields]. fold (walk_fields (walk v h d)) (walk_fields (walk v h d')). apply then_same; [apply wrap_same, IH|exact IL]. }
  assert (M : forall l, snd (walk_entries (walk v h d) l) <> EndDeep -> walk_entries (walk v h d') l = walk_entries (walk v h d) l).
  { induction l as [|[k m] l IL]; [reflexivity|]. cbn [walk_entries]. fold (walk_entries (walk v h d)) (walk_entries (walk v h d')). apply then_same; [reflexivity|]. apply then_same; [apply IH|exact IL]. }
  revert H. cbn [walk]. destruct (cell_at h n) as [x|l|l|m|sig l|]; try reflexivity.
  - apply then_same; [reflexivity|apply A].
  - apply then_same; [reflexivity|apply A].
  - apply then_same; [reflexivity|apply M].
  - apply then_same; [reflexivity|]. apply then_same; [reflexivity|apply F].
Qed.
(** Where following references ends, so does the walk. *)
Lemma bounded_list (P : nat -> nat -> Prop) : (forall n k k', (k <= k')%nat -> P n k -> P n k') -> forall l, (forall n, In n l -> exists k, P n k) -> exists k, forall n, In n l -> P n k.
Proof.
  intros U. induction l as [|n l IH]; intros H; [exists 0%nat; intros _ []|]. destruct (H n (or_introl eq_refl)) as (k1 & K1). destruct IH as (k2 & K2); [intros m Hm; apply H; now right|].
  exists (Nat.max k1 k2). intros m [<-|Hm]; [apply (U n k1); [lia|exact K1]|apply (U m k2); [lia|now apply K2]].
Qed.
Theorem walk_ends v h n : finite_at h n -> exists k, forall d, (k <= d)%nat -> snd (walk v h d n) <> EndDeep.
Proof.
  intros H. induction H as [n _ IH].
  assert (L : forall l, (forall m, In m l -> refers h n m) -> exists k, forall m, In m l -> forall d, (k <= d)%nat -> snd (walk v h d m) <> EndDeep).
  { intros l Hl. apply (bounded_list (fun m k => forall d, (k <= d)%nat -> snd (walk v h d m) <> EndDeep)).
    - intros m k k' Hk Pk d Hd. apply Pk. lia.
    - intros m Hm. exact (IH m (Hl m Hm)). }
  assert (Q : exists l, forall m, refers h n m <-> In m l).
  { unfold refers. destruct (cell_at h n) as [x|l|l|m|sig l|]; [exists []|exists l|exists l|exists (map snd m)|exists l|exists []]; intros; split; auto. }
  destruct Q as (l & Q). destruct (L l (fun m Hm => proj2 (Q m) Hm)) as (k & K). exists (S k). intros [|d] Hd; [lia|]. intros E.
  destruct (walk_end v h d n EndDeep (or_introl eq_refl) E) as [[D _]|(m & R & E1)]; [discriminate|]. exact (K m (proj1 (Q m) R) d ltac:(lia) E1).
Qed.
(** ** A slice that contains itself; a nil pointer *)
Definition own_slice : heap := [CSlice [0%nat]].
Lemma own_walk v d : walk v own_slice d 0 = (repeat [x91] d, EndDeep).
Proof.
  induction d as [|d IH]; [reflexivity|]. cbn [walk own_slice cell_at nth walk_all]. rewrite IH. reflexivity.
Qed.
(** What has been sent by then: a chunk for every [cs] levels. *)
Lemma fill cs w : forall j i, Z.of_nat (i + j) < cs -> run_writes (mkEncoder w (repeat x91 i) cs) (repeat [x91] j) = (mkEncoder w (repeat x91 (i + j)) cs, None).
Proof.
  induction j as [|j IH]; intros i H; cbn [repeat run_writes]; [now rewrite Nat.add_0_r|].
  unfold enc_write. cbn [e_buf e_chunk e_w]. assert (R : repeat x91 i ++ [x91] = repeat x91 (S i)) by (rewrite <- repeat_cons; reflexivity).
  rewrite R. unfold zlen. rewrite repeat_length. destruct (Z.of_nat (S i) >=? cs) eqn:E; [lia|]. rewrite IH by lia. do 2 f_equal. f_equal. lia.
Qed.
Lemma run_writes_app e a b : run_writes e (a ++ b) = match run_writes e a with (e', None) => run_writes e' b | r => r end.
Proof. revert e. induction a as [|p a IH]; intros e; cbn [app run_writes]; [reflexivity|]. destruct (enc_write e p) as [e' [err|]]; [reflexivity|apply IH]. Qed.
Definition own_chunk (cs : nat) : bytes := be 2 (Z.of_nat cs) ++ repeat x91 cs.
Lemma one_chunk cs o : (0 < cs)%nat ->
  run_writes (mkEncoder (mkWriter o None) [] (Z.of_nat cs)) (repeat [x91] cs) = (mkEncoder (mkWriter (o ++ own_chunk cs) None) [] (Z.of_nat cs), None).
Proof.
  intros H. destruct cs as [|c]; [lia|]. replace (repeat [x91] (S c)) with (repeat [x91] c ++ [[x91]]) by (rewrite <- repeat_cons; reflexivity).
  rewrite run_writes_app. pose proof (fill (Z.of_nat (S c)) (mkWriter o None) c 0 ltac:(lia)) as F. change (repeat x91 0) with (@nil byte) in F. rewrite F. clear F. cbn [run_writes]. unfold enc_write. cbn [e_buf e_chunk e_w Nat.add].
  replace (repeat x91 c ++ [x91]) with (repeat x91 (S c)) by (rewrite <- repeat_cons; reflexivity).
  unfold zlen. rewrite repeat_length. destruct (Z.of_nat (S c) >=? Z.of_nat (S c)) eqn:E; [|lia]. unfold w_write. cbn [w_left w_out].
  rewrite Nat2Z.id. rewrite firstn_all2, skipn_all2 by (rewrite repeat_length; lia). unfold own_chunk. now rewrite <- app_assoc.
Qed.
Lemma own_chunks cs k : (0 < cs)%nat -> forall o, run_writes (mkEncoder (mkWriter o None) [] (Z.of_nat cs)) (repeat [x91] (k * cs)) =
  (mkEncoder (mkWriter (o ++ concat (repeat (own_chunk cs) k)) None) [] (Z.of_nat cs), None).
Proof.
  intros H. induction k as [|k IH]; intros o; [cbn; now rewrite app_nil_r|]. cbn [Nat.mul]. rewrite repeat_app, run_writes_app, one_chunk by exact H. rewrite IH.
  cbn [repeat concat]. now rewrite <- app_assoc.
Qed.
Theorem own_sends v cs k : (0 < cs)%nat ->
  encode_refs v (new_encoder fresh_writer (Z.of_nat cs)) own_slice (k * cs) 0 = (mkEncoder (mkWriter (concat (repeat (own_chunk cs) k)) None) [] (Z.of_nat cs), EndDeep).
Proof. intros H. unfold encode_refs. rewrite own_walk. unfold new_encoder, fresh_writer. now rewrite own_chunks. Qed.
Theorem nil_panics v e d : encode_refs v e [CNilPtr] (S d) 0 = (e, EndPanic).
Proof. reflexivity. Qed.
Lemma own_endless : ~ finite_at own_slice 0.
Proof. intros H. assert (G : forall n, finite_at own_slice n -> n <> 0%nat). { intros n F. induction F as [n _ IH]. intros ->. exact (IH 0%nat (or_introl eq_refl) eq_refl). } exact (G 0%nat H eq_refl). Qed.
(** ** What returns without an error is a tree *)
Lemma then_ok a b : snd (t_then a b) = EndOk -> snd a = EndOk /\ snd b = EndOk.
Proof. unfold t_then. destruct a as [a []]; cbn; auto; discriminate. Qed.
Lemma wrap_ok a : snd (t_wrap a) = EndOk -> snd a = EndOk.
Proof. destruct a as [a []]; cbn; auto; discriminate. Qed.
Theorem ok_tree v h : forall d n, snd (walk v h d n) = EndOk -> exists x, stands h n x.
Proof.
  induction d as [|d IH]; intros n H; [discriminate|].
  assert (A : forall l, snd (walk_all (walk v h d) l) = EndOk -> exists xs, stand_all h l xs).
  { induction l as [|m l IL]; intros E; [exists []; constructor|]. cbn [walk_all] in E. fold (walk_all (walk v h d)) in E. apply then_ok in E as [E1 E2].
    destruct (IH m E1) as (x & X). destruct (IL E2) as (xs & XS). exists (x :: xs). now constructor. }
  assert (F : forall l, snd (walk_fields (walk v h d) l) = EndOk -> exists xs, stand_all h l xs).
  { induction l as [|m l IL]; intros E; [exists []; constructor|]. cbn [walk_fields] in E. fold (walk_fields (walk v h d)) in E. apply then_ok in E as [E1 E2].
    destruct (IH m (wrap_ok _ E1)) as (x & X). destruct (IL E2) as (xs & XS). exists (x :: xs). now constructor. }
  assert (M : forall l, snd (walk_entries (walk v h d) l) = EndOk -> exists xs, stand_entries h l xs).
  { induction l as [|[k m] l IL]; intros E; [exists []; constructor|]. cbn [walk_entries] in E. fold (walk_entries (walk v h d)) in E. apply then_ok in E as [_ E]. apply then_ok in E as [E1 E2].
    destruct (IH m E1) as (x & X). destruct (IL E2) as (xs & XS). exists ((k, x) :: xs). now constructor. }
  cbn [walk] in H. destruct (cell_at h n) as [x|l|l|m|sig l|] eqn:C.
  - exists x. now constructor.
  - apply then_ok in H as [_ H]. destruct (A l H) as (xs & X). exists (GSlice xs). exact (sd_slice h n l xs C X).
  - apply then_ok in H as [_ H]. destruct (A l H) as (xs & X). exists (GTSlice xs). exact (sd_tslice h n l xs C X).
  - apply then_ok in H as [_ H]. destruct (M m H) as (xs & X). exists (GMap xs). exact (sd_map h n m xs C X).
  - apply then_ok in H as [_ H]. apply then_ok in H as [_ H]. destruct (F l H) as (xs & X). exists (GStructure sig xs). exact (sd_struct h n sig l xs C X).
  - discriminate.
Qed.
Lemma walk_of_encode v e h d n : snd (encode_refs v e h d n) = EndOk -> snd (walk v h d n) = EndOk.
Proof.
  unfold encode_refs. destruct (walk v h d n) as [ws en]. destruct (run_writes e ws) as [e1 [r|]]; [discriminate|]. cbn [snd]. destruct en; cbn; congruence.
Qed.
(** and what was written is the encoding of that tree *)
Theorem ok_encoded v e h d n : snd (encode_refs v e h d n) = EndOk ->
  exists x, stands h n x /\ encode_refs v e h d n = (fst (encoder_encode v e x), EndOk) /\ snd (encoder_encode v e x) = None.
Proof.
  intros H. pose proof (walk_of_encode v e h d n H) as W. destruct (ok_tree v h d n W) as (x & X). exists x. split; [exact X|].
  destruct (proj1 (trees v h) n x X) as (k & K). pose proof (K (Nat.max k d) ltac:(lia)) as K1. rewrite (deeper v h d (Nat.max k d) n ltac:(lia)) in K1 by congruence.
  unfold encode_refs, encoder_encode in *. rewrite K1 in *. destruct (encode v x) as [ws fin]. unfold of_wseq in *. cbn [fst snd] in *.
  destruct (run_writes e ws) as [e1 [r|]]; [discriminate|]. destruct fin as [f|]; [discriminate|]. destruct (flush e1) as [e2 [r|]]; [discriminate|]. split; reflexivity.
Qed.
(** A value that is not a tree, or meets a nil pointer, is never reported as sent. *)
Lemma tree_one h : (forall n x, stands h n x -> forall y, stands h n y -> x = y)
  /\ (forall l xs, stand_all h l xs -> forall ys, stand_all h l ys -> xs = ys)
  /\ (forall m ms, stand_entries h m ms -> forall ns, stand_entries h m ns -> ms = ns).
Proof.
  apply stands_all_ind.
  - intros n x E y H. inversion H; congruence.
  - intros n l xs E _ IH y H. inversion H; try congruence. f_equal. apply IH. congruence.
  - intros n l xs E _ IH y H. inversion H; try congruence. f_equal. apply IH. congruence.
  - intros n l xs E _ IH y H. inversion H; try congruence. f_equal. apply IH. congruence.
  - intros n sig l xs E _ IH y H. inversion H; try congruence. assert (sig0 = sig /\ l0 = l) as [-> ->] by (split; congruence). f_equal. now apply IH.
  - intros ys H. now inversion H.
  - intros n l x xs _ I1 _ I2 ys H. inversion H; subst. f_equal; auto.
  - intros ys H. now inversion H.
  - intros k n m x ms _ I1 _ I2 ys H. inversion H; subst. f_equal; [f_equal|]; auto.
Qed.
Theorem tree_finite h n x : stands h n x -> finite_at h n.
Proof.
  intros S. enough (E : (forall n x, stands h n x -> finite_at h n) /\ (forall l xs, stand_all h l xs -> forall m, In m l -> finite_at h m)
    /\ (forall m ms, stand_entries h m ms -> forall q, In q (map snd m) -> finite_at h q)) by exact (proj1 E n x S).
  apply stands_all_ind.
  - intros. constructor. unfold refers. rewrite e. intros b [].
  - intros m l xs E _ IH. constructor. unfold refers. rewrite E. exact IH.
  - intros m l xs E _ IH. constructor. unfold refers. rewrite E. exact IH.
  - intros m l xs E _ IH. constructor. unfold refers. rewrite E. exact IH.
  - intros m sig l xs E _ IH. constructor. unfold refers. rewrite E. exact IH.
  - intros m [].
  - intros m l y xs _ I1 _ I2 q [<-|Hq]; auto.
  - intros m [].
  - intros k m l y ms _ I1 _ I2 q [<-|Hq]; auto.
Qed.
Theorem endless_never_ok v e h n : ~ finite_at h n -> forall d, snd (encode_refs v e h d n) <> EndOk.
Proof. intros H d E. destruct (ok_encoded v e h d n E) as (x & X & _). exact (H (tree_finite h n x X)). Qed.
(** Values that end somewhere and meet no nil pointer: Encode returns. *)
Theorem encode_returns v e h n : finite_at h n -> (forall m, comes_to h n m -> cell_at h m <> CNilPtr) ->
  exists k, forall d, (k <= d)%nat -> returned (snd (encode_refs v e h d n)).
Proof.
  intros F N. destruct (walk_ends v h n F) as (k & K). exists k. intros d Hd. pose proof (K d Hd) as A. pose proof (no_panic v h d n N) as B.
  unfold encode_refs. destruct (walk v h d n) as [ws en]. cbn [snd] in A, B. destruct (run_writes e ws) as [e1 [r|]]; [exact I|].
  destruct en; cbn; try exact I; try (now elim A); try (now elim B). destruct (flush e1) as [e2 [r|]]; exact I.
Qed.
(** A parameter map with a shared list. *)
Definition diamond : heap := [CMap [([x61], 1%nat); ([x62], 1%nat)]; CSlice [2%nat; 2%nat]; CLeaf (GInt KInt 7)].
Definition diamond_tree : gval := GMap [([x61], GSlice [GInt KInt 7; GInt KInt 7]); ([x62], GSlice [GInt KInt 7; GInt KInt 7])].
Lemma diamond_stands : stands diamond 0 diamond_tree.
Proof.
  assert (L : stands diamond 2 (GInt KInt 7)) by (now apply sd_leaf).
  assert (S1 : stands diamond 1 (GSlice [GInt KInt 7; GInt KInt 7])) by (apply (sd_slice diamond 1 [2%nat; 2%nat]); [reflexivity|exact (sa_cons _ _ _ _ _ L (sa_cons _ _ _ _ _ L (sa_nil _)))]).
  apply (sd_map diamond 0 [([x61], 1%nat); ([x62], 1%nat)]); [reflexivity|]. exact (se_cons _ _ _ _ _ _ S1 (se_cons _ _ _ _ _ _ S1 (se_nil _))).
Qed.
Lemma diamond_no_nil : forall m, comes_to diamond 0 m -> cell_at diamond m <> CNilPtr.
Proof. intros m _. destruct m as [|[|[|[|m]]]]; discriminate. Qed.
Lemma not_always : ~ (forall v e h n, exists k, forall d, (k <= d)%nat -> returned (snd (encode_refs v e h d n))).
Proof. intros H. destruct (H V1 (new_encoder fresh_writer 16) [CNilPtr] 0%nat) as (k & K). exact (K (S k) ltac:(lia)). Qed.
Lemma no_panic_encode v e h d n : (forall m, comes_to h n m -> cell_at h m <> CNilPtr) -> snd (encode_refs v e h d n) <> EndPanic.
Proof.
  intros N. pose proof (no_panic v h d n N) as B. unfold encode_refs. destruct (walk v h d n) as [ws en]. cbn [snd] in B. destruct (run_writes e ws) as [e1 [r|]]; [discriminate|].
  destruct en; try discriminate; [|now elim B]. destruct (flush e1) as [e2 [r|]]; discriminate.
Qed.
