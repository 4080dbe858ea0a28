(** Facts about reading with deadlines. *)
From Coq Require Import ZArith List Bool Lia ZifyBool.
From Verif Require Import Bytes BytesFacts GoVal GoErr Encoder Decoder SpecPack PackFacts FrameFacts ReadFacts Errors Client Timing SpecTime.
Import ListNotations.
Open Scope Z_scope.

Lemma skip_skip {A} m n (l : list A) : skipn m (skipn n l) = skipn (n + m) l.
Proof. revert l. induction n as [|n IH]; intros l; [reflexivity|]. destruct l; [now destruct m|apply IH]. Qed.
Lemma ends_total T close l : 0 < T -> forall now, exists k t e, ends T close now l k t e.
Proof.
  intros HT. induction l as [|[a b] l IH]; intros now.
  - destruct close as [c|] eqn:E; [destruct (Z.le_gt_cases c (now + T))|]; do 3 eexists; [now eapply ends_closed|now eapply ends_late_close|now constructor].
  - destruct (Z.le_gt_cases a (now + T)) as [H|H]; [|do 3 eexists; now constructor].
    destruct (IH (Z.max now a)) as (k & t & e & E). exists (length b + k)%nat, t, e. now constructor.
Qed.
Lemma comes_zero T now l t : solid l -> comes T now l 0 t -> t = now.
Proof.
  intros So H. inversion H as [| |? ? b ? k]; subst; try lia. inversion So as [|? ? N _]; subst. destruct b; [now destruct N|]. cbn in *. lia.
Qed.
Lemma comes_fun T l : solid l -> forall now k t t', comes T now l k t -> comes T now l k t' -> t = t'.
Proof.
  induction l as [|[a b] l IH]; intros So now k t t' A B.
  - inversion A; inversion B; subst; congruence.
  - inversion So as [|? ? N Sl]; subst. cbn in N.
    assert (0 < length b)%nat by (destruct b; [now destruct N|cbn; lia]).
    inversion A; inversion B; subst; try lia; try reflexivity.
    match goal with H : (length b + ?x = length b + ?y)%nat |- _ => assert (x = y) by lia; subst end. eapply IH; eassumption.
Qed.
Lemma comes_ends T close l : solid l -> forall now k t k' t' e, comes T now l k t -> ends T close now l k' t' e -> (k <= k')%nat.
Proof.
  intros So now k t k' t' e A. revert k' t' e. induction A as [now l|now a b l k Ha Hk|now a b l k t Ha A IH]; intros k' t' e B; [lia| |];
    inversion So; subst; inversion B as [| | | |? ? ? ? k1 ? ? Hb B1]; subst; try lia.
  match goal with H : solid l |- _ => specialize (IH H _ _ _ B1) | H : Forall _ l |- _ => specialize (IH H _ _ _ B1) end. lia.
Qed.
Lemma comes_bound T now l k t : 0 < T -> solid l -> comes T now l k t -> now <= t <= now + T * Z.of_nat k.
Proof.
  intros HT So H. induction H as [now l|now a b l k Ha Hk|now a b l k t Ha H IH]; [lia|nia|].
  inversion So as [|? ? N Sl]; subst. specialize (IH Sl). destruct b; [now destruct N|]. cbn [length]. nia.
Qed.
Lemma ends_bound T close now l k t e : 0 < T -> solid l -> ends T close now l k t e -> now <= t <= now + T * (Z.of_nat k + 1).
Proof.
  intros HT So H. induction H as [now|now c|now c|now a b l|now a b l k t e Ha H IH]; try lia.
  inversion So as [|? ? N Sl]; subst. specialize (IH Sl). destruct b; [now destruct N|]. cbn [length]. nia.
Qed.

(** What taking [n] bytes does. *)
Definition took (T : Z) (close : option Z) (now : Z) (l : schedule) (n k : nat) (t : Z) (e : gerr) (t1 : Z) (l1 : schedule) : Prop :=
  sent_bytes l1 = skipn n (sent_bytes l) /\ solid l1 /\ ends T close t1 l1 (k - n) t e /\
  (forall m t2, comes T t1 l1 m t2 -> comes T now l (n + m) t2).
Lemma read_error_ends T close now l t e : 0 < T -> solid l -> ends T close now l 0 t e ->
  read_error T now l close = (e, t) /\ match l with [] => True | (a, b) :: _ => returns_at T now a = None end.
Proof.
  intros HT So H. unfold read_error, returns_at, gives_up_at. replace (T <=? 0) with false by lia. replace (Z.max T 0) with T by lia.
  inversion H; subst; try (split; [|exact I]); try reflexivity.
  - now replace (c <=? now + T) with true by lia.
  - now replace (c <=? now + T) with false by lia.
  - split; [reflexivity|]. now replace (a <=? now + T) with false by lia.
  - inversion So as [|? ? N _]; subst. destruct b; [now destruct N|]. cbn in *. lia.
Qed.
Lemma took_none T close now l k t e : solid l -> ends T close now l k t e -> took T close now l 0 k t e now l.
Proof. intros So H. split; [reflexivity|]. split; [exact So|]. split; [now rewrite Nat.sub_0_r|intros m t2 X; exact X]. Qed.
Lemma took_part T close now a b l n k t e : 0 < T -> solid ((a, b) :: l) -> a <= now + T -> (0 < n < length b)%nat -> ends T close now ((a, b) :: l) k t e ->
  took T close now ((a, b) :: l) n k t e (Z.max now a) ((a, skipn n b) :: l).
Proof.
  intros HT So Ha Hn H. inversion So as [|? ? N Sl]; subst. inversion H; subst; try lia. split; [|split; [|split]].
  - unfold sent_bytes. cbn [map concat snd]. rewrite skipn_app. replace (n - length b)%nat with 0%nat by lia. reflexivity.
  - constructor; [|exact Sl]. cbn. intros E. apply (f_equal (@length byte)) in E. rewrite skipn_length in E. cbn in E. lia.
  - replace (length b + k0 - n)%nat with (length (skipn n b) + k0)%nat by (rewrite skipn_length; lia). constructor; [lia|].
    now replace (Z.max (Z.max now a) a) with (Z.max now a) by lia.
  - intros m t2 X. inversion X as [|? ? ? ? ? A B|? ? ? ? m' ? A B]; subst.
    + rewrite Nat.add_0_r. now constructor.
    + rewrite skipn_length in B. replace (Z.max (Z.max now a) a) with (Z.max now a) by lia. constructor; lia.
    + rewrite skipn_length. replace (Z.max (Z.max now a) a) with (Z.max now a) in B by lia.
      replace (n + (length b - n + m'))%nat with (length b + m')%nat by lia. now constructor.
Qed.
Lemma took_more T close now a b l n k t e t1 l1 : a <= now + T -> (length b <= n)%nat -> took T close (Z.max now a) l (n - length b) k t e t1 l1 ->
  took T close now ((a, b) :: l) n (length b + k) t e t1 l1.
Proof.
  intros Ha Hn (A & B & C & D). split; [|split; [exact B|split]].
  - unfold sent_bytes in *. cbn [map concat snd]. rewrite skipn_app, (skipn_all2 b) by lia. exact A.
  - now replace (length b + k - n)%nat with (k - (n - length b))%nat by lia.
  - intros m t2 X. replace (n + m)%nat with (length b + (n - length b + m))%nat by lia. constructor; [exact Ha|now apply D].
Qed.
Lemma sent_cons a b l : sent_bytes ((a, b) :: l) = b ++ sent_bytes l.
Proof. reflexivity. Qed.
Lemma full_ends T close l : 0 < T -> solid l -> forall now k t e, ends T close now l k t e -> forall n got,
  ((n <= k)%nat -> exists t1 l1, timed_full T n now l close got = (inl (got ++ firstn n (sent_bytes l)), t1, l1) /\ took T close now l n k t e t1 l1) /\
  ((k < n)%nat -> exists l1, timed_full T n now l close got = (inr (full_err got (firstn k (sent_bytes l)) e), t, l1)).
Proof.
  intros HT So. induction l as [|[a b] l IH]; intros now k t e H n got; (destruct n as [|n];
    [split; [intros _; exists now; eexists; split; [cbn [timed_full firstn]; now rewrite app_nil_r|now apply took_none]|lia]|]).
  - split; [intros Hk; inversion H; subst; lia|]. intros Hk. assert (k = 0%nat) by (now inversion H). subst. cbn [timed_full].
    destruct (read_error_ends T close now [] t e HT So H) as [-> _]. eexists. unfold full_err. cbn [firstn]. now rewrite app_nil_r.
  - inversion So as [|? ? N Sl]; subst. cbn [snd] in N.
    assert (Lb : (0 < length b)%nat) by (destruct b; [now destruct N|cbn; lia]).
    destruct (Nat.eq_dec k 0) as [->|Hk0].
    + split; [lia|]. intros _. destruct (read_error_ends T close now _ t e HT So H) as [E1 E2]. cbn [timed_full]. rewrite E2, E1.
      eexists. unfold full_err. cbn [firstn]. now rewrite app_nil_r.
    + inversion H as [| | | |? ? ? ? k0 ? ? Ha He]; subst; try lia. cbn [timed_full].
      unfold returns_at. replace (T <=? 0) with false by lia. replace (a <=? now + T) with true by lia.
      rewrite sent_cons. destruct (Nat.leb_spec (length b) (S n)) as [Hl|Hl].
      * destruct (IH Sl _ _ _ _ He (S n - length b)%nat (got ++ b)) as [I1 I2]. split.
        -- intros Hn. destruct I1 as (t1 & l1 & -> & I1); [lia|]. exists t1, l1. rewrite firstn_app, (firstn_all2 b), <- app_assoc by lia.
           split; [reflexivity|now apply took_more].
        -- intros Hn. destruct I2 as (l1 & ->); [lia|]. exists l1. unfold full_err. rewrite firstn_app, (firstn_all2 b), <- app_assoc by lia.
           now replace (length b + k0 - length b)%nat with k0 by lia.
      * split; [|lia]. intros _. do 2 eexists. rewrite firstn_app. replace (S n - length b)%nat with 0%nat by lia. cbn [firstn]. rewrite app_nil_r.
        split; [reflexivity|]. apply took_part; auto; lia.
Qed.
Lemma data_ends T close l : 0 < T -> solid l -> forall now k t e, ends T close now l k t e -> forall n got,
  ((n <= k)%nat -> exists t1 l1, timed_data T n now l close got = (inl (got ++ firstn n (sent_bytes l)), t1, l1) /\ took T close now l n k t e t1 l1) /\
  ((k < n)%nat -> exists l1, timed_data T n now l close got = (inr (EWrap (Some e) 10), t, l1)).
Proof.
  intros HT So. induction l as [|[a b] l IH]; intros now k t e H n got; (destruct n as [|n];
    [split; [intros _; exists now; eexists; split; [cbn [timed_data firstn]; now rewrite app_nil_r|now apply took_none]|lia]|]).
  - split; [intros Hk; inversion H; subst; lia|]. intros Hk. assert (k = 0%nat) by (now inversion H). subst. cbn [timed_data].
    destruct (read_error_ends T close now [] t e HT So H) as [-> _]. eexists. reflexivity.
  - inversion So as [|? ? N Sl]; subst. cbn [snd] in N.
    assert (Lb : (0 < length b)%nat) by (destruct b; [now destruct N|cbn; lia]).
    destruct (Nat.eq_dec k 0) as [->|Hk0].
    + split; [lia|]. intros _. destruct (read_error_ends T close now _ t e HT So H) as [E1 E2]. cbn [timed_data]. rewrite E2, E1. eexists. reflexivity.
    + inversion H as [| | | |? ? ? ? k0 ? ? Ha He]; subst; try lia. cbn [timed_data].
      unfold returns_at. replace (T <=? 0) with false by lia. replace (a <=? now + T) with true by lia.
      rewrite sent_cons. destruct b as [|b0 b1]; [now destruct N|]. set (b := b0 :: b1) in *. destruct (Nat.leb_spec (length b) (S n)) as [Hl|Hl].
      * destruct (IH Sl _ _ _ _ He (S n - length b)%nat (got ++ b)) as [I1 I2]. split.
        -- intros Hn. destruct I1 as (t1 & l1 & -> & I1); [lia|]. exists t1, l1. rewrite firstn_app, (firstn_all2 b), <- app_assoc by lia.
           split; [reflexivity|now apply took_more].
        -- intros Hn. destruct I2 as (l1 & ->); [lia|]. exists l1. reflexivity.
      * split; [|lia]. intros _. do 2 eexists. rewrite firstn_app. replace (S n - length b)%nat with 0%nat by lia. cbn [firstn]. rewrite app_nil_r.
        split; [reflexivity|]. apply took_part; auto; lia.
Qed.
Lemma ends_length T close now l k t e : ends T close now l k t e -> (k <= length (sent_bytes l))%nat.
Proof. induction 1; rewrite ?sent_cons, ?app_length; cbn; lia. Qed.
Lemma loop_ends T close : 0 < T -> forall fuel l now k t e out, solid l -> ends T close now l k t e ->
  match flat_loop fuel (firstn k (sent_bytes l)) e out with
  | Ok (p, rest) => exists n t1 l1, timed_loop fuel T now l close out = (Ok p, t1, l1) /\ (n <= k)%nat /\ rest = firstn (k - n) (skipn n (sent_bytes l)) /\ took T close now l n k t e t1 l1
  | Err e' => exists l1, timed_loop fuel T now l close out = (Err e', t, l1)
  | Panic => False
  | NoFuel => exists t1 l1, timed_loop fuel T now l close out = (NoFuel, t1, l1)
  end.
Proof.
  intros HT. induction fuel as [|fuel IH]; intros l now k t e out So H; [cbn; eauto|]. cbn [flat_loop timed_loop].
  pose proof (ends_length _ _ _ _ _ _ _ H) as Lk.
  destruct (full_ends T close l HT So now k t e H 2 []) as [F1 F2].
  rewrite firstn_length. replace (Nat.min k (length (sent_bytes l))) with k by lia.
  destruct (Nat.leb_spec 2 k) as [H2|H2].
  - destruct (F1 H2) as (t1 & l1 & -> & A & B & C & D). clear F1 F2. cbn [app].
    rewrite firstn_firstn. replace (Nat.min 2 k) with 2%nat by lia.
    destruct (unbe (firstn 2 (sent_bytes l)) =? 0) eqn:E0.
    + exists 2%nat, t1, l1. split; [reflexivity|]. split; [exact H2|]. split; [|now repeat split].
      rewrite skipn_firstn_comm. reflexivity.
    + set (n := Z.to_nat (unbe (firstn 2 (sent_bytes l)))) in *.
      rewrite skipn_firstn_comm, firstn_length, skipn_length, <- A.
      replace (Nat.min (k - 2) (length (sent_bytes l) - 2)) with (k - 2)%nat by lia.
      destruct (data_ends T close l1 HT B t1 (k - 2)%nat t e C n []) as [G1 G2].
      destruct (Nat.leb_spec n (k - 2)) as [Hn|Hn].
      * destruct (G1 Hn) as (t2 & l2 & -> & A2 & B2 & C2 & D2). cbn [app].
        rewrite skipn_firstn_comm, firstn_firstn. replace (Nat.min n (k - 2)) with n by lia. rewrite <- A2.
        specialize (IH l2 t2 (k - 2 - n)%nat t e (out ++ firstn n (sent_bytes l1)) B2 C2).
        destruct (flat_loop fuel _ e _) as [[p rest]| | |]; auto.
        destruct IH as (m & t3 & l3 & -> & Hm & -> & A3 & B3 & C3 & D3). exists (2 + n + m)%nat, t3, l3. split; [reflexivity|]. split; [lia|].
        assert (X : skipn m (sent_bytes l2) = skipn (2 + n + m) (sent_bytes l)) by (rewrite A2, A, !skip_skip; f_equal; lia).
        split; [rewrite X; f_equal; lia|]. split; [congruence|]. split; [exact B3|]. split.
        -- now replace (k - (2 + n + m))%nat with (k - 2 - n - m)%nat by lia.
        -- intros q t4 Q. replace (2 + n + m + q)%nat with (2 + (n + (m + q)))%nat by lia. now apply D, D2, D3.
      * destruct (G2 Hn) as (l2 & ->). eauto.
  - destruct (F2 H2) as (l1 & ->). eauto.
Qed.
Lemma flat_fuel f b e out : (length b < f)%nat -> flat_loop f b e out = flat_loop (S (length b)) b e out.
Proof. intros H. apply flat_loop_fuel; lia. Qed.
Lemma read_ends T now i k t e : 0 < T -> solid (i_pieces i) -> ends T (i_close i) now (i_pieces i) k t e ->
  match flat_read (firstn k (sent_bytes (i_pieces i))) e with
  | Ok (p, rest) => exists n t1 i1, timed_read T now i = (Ok p, t1, i1) /\ (n <= k)%nat /\ rest = firstn (k - n) (skipn n (sent_bytes (i_pieces i)))
      /\ sent_bytes (i_pieces i1) = skipn n (sent_bytes (i_pieces i)) /\ comes T now (i_pieces i) n t1
  | Err e' => exists i1, timed_read T now i = (Err e', t, i1)
  | _ => False
  end.
Proof.
  intros HT So H. pose proof (ends_length _ _ _ _ _ _ _ H) as Lk.
  pose proof (loop_ends T (i_close i) HT (S (length (timed_bytes (i_pieces i)))) _ _ _ _ _ [] So H) as L.
  unfold timed_read, flat_read. change (timed_bytes (i_pieces i)) with (sent_bytes (i_pieces i)) in *.
  assert (Hl : (length (firstn k (sent_bytes (i_pieces i))) < S (length (sent_bytes (i_pieces i))))%nat) by (rewrite firstn_length; lia).
  rewrite <- (flat_fuel _ _ e [] Hl). pose proof (flat_loop_total e _ _ [] Hl) as [T1 T2].
  destruct (flat_loop _ _ e []) as [[p rest]|e'| |]; try contradiction.
  - destruct L as (n & t1 & l1 & -> & Hn & Hr & A & B & C & D). exists n, t1. eexists. split; [reflexivity|]. split; [exact Hn|]. split; [exact Hr|]. split; [exact A|].
    rewrite <- (Nat.add_0_r n). apply D. constructor.
  - destruct L as (l1 & ->). eauto.
Qed.

(** A message is delivered when its last byte arrives. *)
Lemma message_in_time T now i p w rest t : 0 < T -> solid (i_pieces i) -> frames p w -> sent_bytes (i_pieces i) = w ++ rest ->
  comes T now (i_pieces i) (length w) t -> exists i', timed_read T now i = (Ok p, t, i') /\ sent_bytes (i_pieces i') = rest.
Proof.
  intros HT So F E C. destruct (ends_total T (i_close i) (i_pieces i) HT now) as (k & t' & e & H).
  pose proof (comes_ends T _ _ So _ _ _ _ _ _ C H) as Hk. pose proof (ends_length _ _ _ _ _ _ _ H) as Lk.
  pose proof (read_ends T now i k t' e HT So H) as R. rewrite E in R, Lk. rewrite firstn_app, firstn_all2, (frames_flat_read e p w) in R by (assumption || lia).
  destruct R as (n & t1 & i1 & R & Hn & Hr & A & B). exists i1.
  assert (n = length w).
  { apply (f_equal (@length byte)) in Hr. rewrite skipn_app in Hr. rewrite !firstn_length, app_length, !skipn_length in Hr. rewrite app_length in Lk. lia. }
  subst n. split; [|rewrite A, skipn_app, skipn_all, Nat.sub_diag; reflexivity].
  rewrite R. do 2 f_equal. exact (comes_fun T _ So _ _ _ _ B C).
Qed.
(** What is read off a flat stream is a message at its start. *)
Lemma flat_loop_framed en f : forall b out p rest, flat_loop f b en out = Ok (p, rest) -> exists q w, p = out ++ q /\ frames q w /\ b = w ++ rest.
Proof.
  induction f as [|f IH]; intros b out p rest; cbn [flat_loop]; [discriminate|].
  destruct (Nat.leb_spec 2 (length b)) as [H2|H2]; [|discriminate].
  assert (Eb : b = firstn 2 b ++ skipn 2 b) by (now rewrite firstn_skipn).
  assert (L2 : length (firstn 2 b) = 2%nat) by (rewrite firstn_length; lia).
  pose proof (unbe_range (firstn 2 b)) as U. unfold zlen in U. rewrite L2 in U. change (256 ^ Z.of_nat 2) with 65536 in U.
  destruct (Z.eqb_spec (unbe (firstn 2 b)) 0) as [E|E].
  - intros X. injection X as <- <-. exists [], [x00; x00]. rewrite app_nil_r. split; [reflexivity|]. split; [constructor|].
    rewrite Eb at 1. f_equal. destruct (firstn 2 b) as [|x [|y [|]]]; try discriminate L2. cbn in E.
    pose proof (bz_range x). pose proof (bz_range y). assert (bz x = 0 /\ bz y = 0) as [X Y] by lia.
    rewrite <- (zb_bz x), <- (zb_bz y), X, Y. reflexivity.
  - destruct (Nat.leb_spec (Z.to_nat (unbe (firstn 2 b))) (length (skipn 2 b))) as [H3|H3]; [|discriminate].
    intros X. destruct (IH _ _ _ _ X) as (q & w & -> & F & Ew). set (n := Z.to_nat (unbe (firstn 2 b))) in *.
    exists (firstn n (skipn 2 b) ++ q), (firstn 2 b ++ firstn n (skipn 2 b) ++ w). split; [now rewrite app_assoc|]. split.
    + assert (Zl : zlen (firstn n (skipn 2 b)) = unbe (firstn 2 b)) by (unfold zlen; rewrite firstn_length; lia).
      constructor; [|lia| |exact F].
      * intros Q. apply E. rewrite <- Zl, Q. reflexivity.
      * split; [exact L2|]. rewrite Zl, unbe_be_value. reflexivity.
    + rewrite Eb at 1. rewrite <- !app_assoc. f_equal. rewrite <- Ew. now rewrite firstn_skipn.
Qed.

(** The error is the one the stream ended with. *)
Lemma flat_loop_error en f : forall b out e, flat_loop f b en out = Err e -> (forall i m, en <> EWrap i m) ->
  inner_most e = en \/ en = EEOF /\ inner_most e = EUnexpectedEOF.
Proof.
  induction f as [|f IH]; intros b out e; cbn [flat_loop]; [discriminate|].
  destruct (Nat.leb 2 (length b)).
  - destruct (unbe (firstn 2 b) =? 0); [discriminate|]. destruct (Nat.leb _ _); [apply IH|].
    intros X N. injection X as <-. left. cbn [inner_most]. destruct en; try reflexivity. now destruct (N inner m).
  - intros X N. injection X as <-. unfold full_err. cbn [app]. destruct b as [|x b].
    + left. cbn [inner_most]. destruct en; try reflexivity. now destruct (N inner m).
    + destruct en; try (left; reflexivity); [now destruct (N inner m)|right; now split].
Qed.
Lemma ends_error T close now l k t e : ends T close now l k t e -> e = EBadConn \/ e = EEOF.
Proof. induction 1; auto. Qed.
Lemma read_fails T now i k t e : 0 < T -> solid (i_pieces i) -> ends T (i_close i) now (i_pieces i) k t e ->
  (forall p w rest, frames p w -> firstn k (sent_bytes (i_pieces i)) <> w ++ rest) ->
  exists e' i', timed_read T now i = (Err e', t, i') /\ (inner_most e' = e \/ e = EEOF /\ inner_most e' = EUnexpectedEOF).
Proof.
  intros HT So H N. pose proof (read_ends T now i k t e HT So H) as R. unfold flat_read in R.
  destruct (flat_loop _ _ e []) as [[p rest]|e'| |] eqn:E; try contradiction.
  - destruct (flat_loop_framed _ _ _ _ _ _ E) as (q & w & _ & F & X). destruct (N q w rest F X).
  - destruct R as (i1 & ->). exists e', i1. split; [reflexivity|]. apply (flat_loop_error _ _ _ _ _ E).
    intros i0 m. destruct (ends_error _ _ _ _ _ _ _ H) as [->| ->]; discriminate.
Qed.
Lemma no_patience T now i : T <= 0 -> exists e i', timed_read T now i = (Err e, now, i') /\ inner_most e = EBadConn.
Proof.
  intros HT. unfold timed_read. cbn [timed_loop].
  assert (R : forall x, returns_at T now x = None) by (intros x; unfold returns_at; now replace (T <=? 0) with true by lia).
  assert (G : gives_up_at T now = now) by (unfold gives_up_at; lia).
  assert (E : forall l c, read_error T now l c = (EBadConn, now)) by (intros l c; unfold read_error; destruct l, c; rewrite ?R, ?G; reflexivity).
  destruct (i_pieces i) as [|[a b] l]; cbn [timed_full]; rewrite E, ?R; do 2 eexists; (split; [reflexivity|reflexivity]).
Qed.
Lemma trickle_solid T b : forall now, solid (trickle T now b) /\ sent_bytes (trickle T now b) = b.
Proof. induction b as [|x b IH]; intros now; [split; [constructor|reflexivity]|]. destruct (IH (now + T)) as [A B]. split; [constructor; [discriminate|exact A]|]. cbn. f_equal. exact B. Qed.
Lemma trickle_comes T b : 0 < T -> forall now, comes T now (trickle T now b) (length b) (now + T * zlen b).
Proof.
  intros HT. induction b as [|x b IH]; intros now; [cbn; rewrite Z.mul_0_r, Z.add_0_r; constructor|]. cbn [trickle].
  change (length (x :: b)) with (length [x] + length b)%nat. constructor; [lia|].
  replace (Z.max now (now + T)) with (now + T) by lia. replace (now + T * zlen (x :: b)) with (now + T + T * zlen b) by (unfold zlen; cbn [length]; lia).
  apply IH.
Qed.
Lemma trickled T now p w : 0 < T -> frames p w ->
  exists i', timed_read T now (mkIncoming (trickle T now w) None) = (Ok p, now + T * zlen w, i').
Proof.
  intros HT F. destruct (trickle_solid T w now) as [A B].
  destruct (message_in_time T now (mkIncoming (trickle T now w) None) p w [] (now + T * zlen w)) as (i' & E & _); cbn [i_pieces]; auto.
  - now rewrite app_nil_r.
  - now apply trickle_comes.
  - eauto.
Qed.
Lemma read_bound T now i r t i' : 0 < T -> solid (i_pieces i) -> timed_read T now i = (r, t, i') -> now <= t <= now + T * (zlen (sent_bytes (i_pieces i)) + 1).
Proof.
  intros HT So E. destruct (ends_total T (i_close i) (i_pieces i) HT now) as (k & te & e & H).
  pose proof (read_ends T now i k te e HT So H) as R. pose proof (ends_length _ _ _ _ _ _ _ H) as Lk. unfold zlen.
  destruct (flat_read _ e) as [[p rest]|e'| |]; try contradiction.
  - destruct R as (n & t1 & i1 & R & Hn & _ & _ & C). rewrite R in E. injection E as <- <- <-. pose proof (comes_bound T _ _ _ _ HT So C). nia.
  - destruct R as (i1 & R). rewrite R in E. injection E as <- <- <-. pose proof (ends_bound T _ _ _ _ _ _ HT So H). nia.
Qed.

(** What is read is what the decoder reads from the bytes that come in time. *)
Lemma read_as_decoder T now i k t e fs : 0 < T -> solid (i_pieces i) -> ends T (i_close i) now (i_pieces i) k t e ->
  nonempty fs -> concat fs = firstn k (sent_bytes (i_pieces i)) ->
  match read_message (mkReader fs e) with Ok (p, _) => Ok p | Err e' => Err e' | Panic => Panic | NoFuel => NoFuel end = fst (fst (timed_read T now i)).
Proof.
  intros HT So H N E. pose proof (read_ends T now i k t e HT So H) as R. pose proof (read_message_flat (mkReader fs e) N) as M.
  unfold r_bytes in M. cbn [r_frags r_end] in M. rewrite E in M. destruct (flat_read _ e) as [[p rest]|e'| |]; try contradiction.
  - destruct R as (n & t1 & i1 & -> & _). destruct (read_message _) as [[p' fs']|e2| |]; cbn in M; try contradiction. destruct M as [-> _]. reflexivity.
  - destruct R as (i1 & ->). destruct (read_message _) as [[p' fs']|e2| |]; cbn in M; try contradiction. now subst.
Qed.

(** ** Dialling *)
Lemma dial_tcp F cf d now up : how_to_dial F cf = Ok d -> cf_tls cf = false -> 0 < cf_timeout cf ->
  exists ok t, dial_time d now up = Some (ok, t) /\ now <= t <= now + cf_timeout cf /\
    (ok = true <-> exists u, up = Some u /\ u <= now + cf_timeout cf).
Proof.
  unfold how_to_dial. intros E Ht HT. rewrite Ht in E. injection E as <-. cbn [dial_time].
  replace (cf_timeout cf =? 0) with false by lia. unfold returns_at, gives_up_at. replace (cf_timeout cf <=? 0) with false by lia.
  destruct up as [u|]; [destruct (Z.leb_spec u (now + cf_timeout cf))|]; do 2 eexists; (split; [reflexivity|]); (split; [lia|]); split; intros X; try discriminate; eauto;
    destruct X as (u0 & [= <-] & X); lia.
Qed.
Lemma dial_tls_waits F cf d now up : how_to_dial F cf = Ok d -> cf_tls cf = true ->
  dial_time d now up = match up with Some t => Some (true, Z.max now t) | None => None end.
Proof. unfold how_to_dial. intros E Ht. rewrite Ht in E. destruct (tls_config F cf) as [t| | |]; try discriminate. injection E as <-. reflexivity. Qed.
Lemma dial_zero_waits F cf d now up : how_to_dial F cf = Ok d -> cf_timeout cf = 0 ->
  dial_time d now up = match up with Some t => Some (true, Z.max now t) | None => None end.
Proof.
  unfold how_to_dial. intros E Ht. destruct (cf_tls cf); [destruct (tls_config F cf) as [t| | |]; try discriminate; now injection E as <-|].
  injection E as <-. cbn [dial_time]. now rewrite Ht.
Qed.
