(** In which order servers are used (C56). *)
From Coq Require Import String ZArith List Bool Lia ZifyBool Permutation.
From Verif Require Import Bytes GoVal GoErr Decoder Messages GoStr Routing Pool SpecPool BytesFacts RoutingFacts PoolFacts LendFacts SteadyFacts WatchPoolFacts RouteFacts SizeFacts.
Import ListNotations.
Open Scope Z_scope.

(** ** Counting in a cycle *)

Lemma div_step x n : 0 < n -> (x + 1) / n = x / n + (if (x + 1) mod n =? 0 then 1 else 0).
Proof.
  intros Hn. pose proof (Z.div_mod x n ltac:(lia)) as D. pose proof (Z.mod_pos_bound x n Hn) as B.
  destruct (Z.eq_dec (x mod n + 1) n) as [E|E].
  - rewrite <- (Z.div_unique (x + 1) n (x / n + 1) 0), <- (Z.mod_unique (x + 1) n (x / n + 1) 0) by nia. reflexivity.
  - rewrite <- (Z.div_unique (x + 1) n (x / n) (x mod n + 1)), <- (Z.mod_unique (x + 1) n (x / n) (x mod n + 1)) by nia.
    destruct (Z.eqb_spec (x mod n + 1) 0); lia.
Qed.
Lemma mod_shift x n i : 0 <= i < n -> (x mod n = i <-> (x - i) mod n = 0).
Proof.
  intros H. pose proof (Z.div_mod x n ltac:(lia)) as D. pose proof (Z.mod_pos_bound x n ltac:(lia)) as B. split.
  - intros E. replace (x - i) with (x / n * n) by lia. apply Z.mod_mul. lia.
  - intros E. apply Z.mod_divide in E; [|lia]. destruct E as [q E]. symmetry. apply (Z.mod_unique _ _ q); lia.
Qed.
Lemma count_app (l1 l2 : list bytes) a : count_occ bytes_dec (l1 ++ l2) a = (count_occ bytes_dec l1 a + count_occ bytes_dec l2 a)%nat.
Proof. apply count_occ_app. Qed.
Lemma cycle_count l i a j : NoDup l -> nth_error l j = Some a -> forall k,
  Z.of_nat (count_occ bytes_dec (cycle l i k) a) = (i + 1 + Z.of_nat k - 1 - Z.of_nat j) / zlen l - (i - Z.of_nat j) / zlen l.
Proof.
  intros N Hj. assert (Lj : (j < length l)%nat) by (apply nth_error_Some; congruence). assert (P : 0 < zlen l) by (unfold zlen; lia).
  induction k as [|k IH].
  - cbn. replace (i + 1 + 0 - 1 - Z.of_nat j) with (i - Z.of_nat j) by lia. lia.
  - unfold cycle. rewrite seq_S, map_app, count_app. fold (cycle l i k). cbn [map plus].
    replace (i + 1 + Z.of_nat (S k) - 1 - Z.of_nat j) with (i + 1 + Z.of_nat k - 1 - Z.of_nat j + 1) by lia. rewrite div_step by exact P.
    rewrite Nat2Z.inj_add, IH. set (x := (i + 1 + Z.of_nat k) mod zlen l).
    assert (Bx : 0 <= x < zlen l) by (apply Z.mod_pos_bound; exact P).
    assert (Hx : x = Z.of_nat j <-> (i + 1 + Z.of_nat k - Z.of_nat j) mod zlen l = 0) by (apply mod_shift; unfold zlen in *; lia).
    replace (i + 1 + Z.of_nat k - 1 - Z.of_nat j + 1) with (i + 1 + Z.of_nat k - Z.of_nat j) by lia.
    assert (En : nth (Z.to_nat x) l [] = a <-> x = Z.of_nat j).
    { split.
      - intros E. assert (Z.to_nat x = j); [|lia]. apply (proj1 (NoDup_nth l []) N); [unfold zlen in Bx; lia|exact Lj|].
        rewrite E. symmetry. now apply nth_error_nth.
      - intros ->. rewrite Nat2Z.id. now apply nth_error_nth. }
    cbn [count_occ]. destruct (bytes_dec (nth (Z.to_nat x) l []) a) as [E|E].
    + apply En, Hx in E. destruct (Z.eqb_spec ((i + 1 + Z.of_nat k - Z.of_nat j) mod zlen l) 0); lia.
    + destruct (Z.eqb_spec ((i + 1 + Z.of_nat k - Z.of_nat j) mod zlen l) 0) as [E'|E']; [|lia]. exfalso. apply E. apply En, Hx, E'.
Qed.
Lemma div_diff x k n : 0 < n -> 0 <= k -> k / n <= (x + k) / n - x / n <= k / n + 1.
Proof.
  intros Hn Hk. pose proof (Z.div_mod x n ltac:(lia)). pose proof (Z.mod_pos_bound x n Hn). pose proof (Z.div_mod k n ltac:(lia)). pose proof (Z.mod_pos_bound k n Hn).
  pose proof (Z.div_mod (x + k) n ltac:(lia)). pose proof (Z.mod_pos_bound (x + k) n Hn). nia.
Qed.
Theorem equal_use l i k a : NoDup l -> In a l ->
  Z.of_nat k / zlen l <= Z.of_nat (count_occ bytes_dec (cycle l i k) a) <= Z.of_nat k / zlen l + 1.
Proof.
  intros N H. apply In_nth_error in H. destruct H as [j Hj]. rewrite (cycle_count l i a j N Hj k).
  replace (i + 1 + Z.of_nat k - 1 - Z.of_nat j) with (i - Z.of_nat j + Z.of_nat k) by lia.
  apply div_diff; [|lia]. destruct l; [destruct j; discriminate|]. unfold zlen. cbn [length]. lia.
Qed.

Section Rotation.
Context {W : Type}.
Variable K : cluster W.

(** One more connection goes to the next server, whether it succeeds or not; the rotation itself does not fail. *)
Lemma add_next m p w tr p' w' tr' r : add_conn (watch K) m p (w, tr) = (p', (w', tr'), r) ->
  0 <= index_for m p < zlen (strings_for m p) ->
  let i := (index_for m p + 1) mod zlen (strings_for m p) in
  exists d, tr' = KDial (nth (Z.to_nat i) (strings_for m p) []) d :: tr
  /\ (r = Panic -> d = Panic) /\ (forall e, r = Err e -> d = Err e) /\ (r = Ok tt -> exists h, d = Ok h)
  /\ index_for m p' = i /\ strings_for m p' = strings_for m p /\ index_for (other m) p' = index_for (other m) p /\ strings_for (other m) p' = strings_for (other m) p.
Proof.
  intros E Hi. cbv zeta. unfold add_conn, get in E. destruct (strings_for m p) as [|s0 strs] eqn:Es in *; [cbn in Hi; lia|]. cbv zeta in E.
  set (l := s0 :: strs) in *.
  assert (Ei : (if index_for m p + 1 =? zlen l then 0 else index_for m p + 1) = (index_for m p + 1) mod zlen l).
  { destruct (Z.eqb_spec (index_for m p + 1) (zlen l)) as [->|N]; [now rewrite Z.mod_same by lia|now rewrite Z.mod_small by lia]. }
  rewrite Ei in E. set (i := (index_for m p + 1) mod zlen l) in *. assert (B : 0 <= i < zlen l) by (apply Z.mod_pos_bound; lia).
  unfold bind at 1, mbind at 1, upd at 1 in E. replace ((0 <=? i) && (i <? zlen l)) with true in E by lia.
  destruct (nth_error l (Z.to_nat i)) as [s|] eqn:En; [|apply nth_error_None in En; unfold zlen in B; lia].
  assert (X : nth (Z.to_nat i) l [] = s) by (apply nth_error_nth; exact En). rewrite X. unfold new_connection, bind, mbind, dial in E. cbn [watch k_dial k_name fst snd] in E.
  destruct (k_dial K s w) as [w1 d] eqn:Ed. exists d.
  assert (P1 : forall p' q x, p' = set_index m i p \/ p' = set_queue m q (set_held x (set_index m i p)) ->
    index_for m p' = i /\ strings_for m p' = l /\ index_for (other m) p' = index_for (other m) p /\ strings_for (other m) p' = strings_for (other m) p).
  { clear E. intros q' q x [->| ->]; rewrite <- Es; unfold set_queue, set_index, index_for, strings_for, other; destruct (m =? WriteMode); cbn; auto. }
  destruct d as [h|e| |].
  - cbn [fst snd] in E. destruct (k_name K w1) as [w2 name]. unfold upd in E. injection E as <- _ <- <-. split; [reflexivity|].
    do 2 (split; [discriminate|]). split; [eauto|]. eapply P1. right. reflexivity.
  - injection E as <- _ <- <-. split; [reflexivity|]. split; [discriminate|]. split; [congruence|]. split; [discriminate|]. apply (P1 _ [] []). now left.
  - injection E as <- _ <- <-. split; [reflexivity|]. split; [auto|]. split; [discriminate|]. split; [discriminate|]. apply (P1 _ [] []). now left.
  - injection E as <- _ <- <-. split; [reflexivity|]. split; [discriminate|]. split; [discriminate|]. split; [discriminate|]. apply (P1 _ [] []). now left.
Qed.
Lemma cycle_S l i k : 0 <= i < zlen l -> cycle l i (S k) = nth (Z.to_nat ((i + 1) mod zlen l)) l [] :: cycle l ((i + 1) mod zlen l) k.
Proof.
  intros H. unfold cycle. cbn [seq map]. rewrite Z.add_0_r. f_equal. rewrite <- seq_shift, map_map. apply map_ext. intros j.
  do 2 f_equal. rewrite Nat2Z.inj_succ. unfold Z.succ.
  replace (i + 1 + (Z.of_nat j + 1)) with (i + 1 + (1 + Z.of_nat j)) by lia. rewrite <- Z.add_mod_idemp_l by lia. f_equal. lia.
Qed.
Theorem rotation m k : forall p w tr p' w' tr', times k (add_conn (watch K) m) p (w, tr) = (p', (w', tr'), Ok tt) ->
  0 <= index_for m p < zlen (strings_for m p) ->
  exists new, tr' = new ++ tr /\ dialled new = cycle (strings_for m p) (index_for m p) k.
Proof.
  induction k as [|k IH]; intros p w tr p' w' tr'; cbn [times].
  - intros [= _ _ <-] _. now exists [].
  - unfold bind, mbind. destruct (add_conn (watch K) m p (w, tr)) as [[p1 [w1 tr1]] r1] eqn:E. intros E' Hi.
    destruct (add_next _ _ _ _ _ _ _ _ E Hi) as (d & -> & _ & _ & _ & I1 & S1 & _).
    destruct r1 as [[]|e| |]; try discriminate. apply IH in E'.
    + destruct E' as (new & -> & D). exists (new ++ [KDial (nth (Z.to_nat ((index_for m p + 1) mod zlen (strings_for m p))) (strings_for m p) []) d]).
      split; [now rewrite <- app_assoc|]. rewrite dialled_app, D, S1, I1. cbn [dialled flat_map app rev].
      rewrite cycle_S by exact Hi. reflexivity.
    + rewrite I1, S1. apply Z.mod_pos_bound. lia.
Qed.

(** Lists of addresses have no repetitions. *)
Lemma decorated_nodup auth tls news : forall kept, NoDup kept -> NoDup (decorated auth tls news kept).
Proof.
  unfold decorated. induction news as [|a news IH]; intros kept N; [exact N|]. cbn [fold_left]. apply IH.
  destruct (slice_contains kept (add_auth_info auth tls a)) eqn:E; [exact N|].
  rewrite <- (rev_involutive (kept ++ _)). apply NoDup_rev. rewrite rev_app_distr. cbn. constructor; [|now apply NoDup_rev].
  rewrite <- in_rev. intros H. apply slice_contains_in in H. congruence.
Qed.

(** C56 for the connections opened when the pool starts *)
Theorem start_rotates leader n auth tls p w p' w' tr : 2 <= n -> new_routing_pool leader n auth tls = Ok p ->
  start_pool (watch K) p (w, []) = (p', (w', tr), Ok tt) ->
  NoDup (p_rw p') /\ NoDup (p_rs p')
  /\ map pw_str (p_wq p') = cycle (p_rw p') 0 (length (p_wq p')) /\ map pw_str (p_rq p') = cycle (p_rs p') 0 (length (p_rq p')).
Proof.
  intros Hn En Es. apply new_fields in En. destruct En as (Hl & Hm & Hr & Ht & Hw & Hq & _ & Hrw & Hrs & Hi1 & Hi2 & _).
  unfold start_pool, get in Es. rewrite Hr in Es. unfold bind, mbind, upd in Es. set (p0 := set_max _ _ _) in Es.
  destruct (refresh_connections (watch K) p0 (w, [])) as [[p1 [w1 tr1]] r1] eqn:Er. destruct r1 as [[]|e| |]; try discriminate.
  pose proof (steady_refresh _ p0 _ _ _ _ Hl Er) as (_ & _ & _ & _ & Q1 & Q2 & _ & X1 & X2).
  assert (ND : NoDup (p_rw p1) /\ NoDup (p_rs p1)).
  { apply refresh_trace in Er. destruct Er as [(-> & _)|(d & e & v & rows & hd & _ & _ & ->)].
    - change (p_rw p0) with (p_rw p). change (p_rs p0) with (p_rs p). rewrite Hrw, Hrs. split; constructor.
    - rewrite merge_rw, merge_rs. cbn [p_rw p_rs set_handler p0 set_max set_running]. rewrite Hrw, Hrs. split; apply decorated_nodup; constructor. }
  destruct (times (Z.to_nat (p_max_w p1)) (add_conn (watch K) WriteMode) p1 (w1, tr1)) as [[p2 [w2 tr2]] r2] eqn:Et. destruct r2 as [[]|e| |]; try discriminate.
  assert (Str : forall m k q w tr q' w' tr', times k (add_conn (watch K) m) q (w, tr) = (q', (w', tr'), Ok tt) ->
     strings_for m q' = strings_for m q /\ strings_for (other m) q' = strings_for (other m) q /\ index_for (other m) q' = index_for (other m) q).
  { clear. intros m k. induction k as [|k IH]; intros q w tr q' w' tr'; cbn [times]; [intros [= <- _ _]; auto|].
    unfold bind, mbind. destruct (add_conn (watch K) m q (w, tr)) as [[p1 [w1 tr1]] r1] eqn:E. destruct r1 as [[]|e| |]; try discriminate.
    intros E'. apply IH in E'. destruct E' as (A & B & C). rewrite A, B, C.
    eapply (add_eff (watch K) longer) in E; eauto using longer_refl, longer_trans, longer_dial, longer_valid, longer_close, longer_name.
    destruct E as [(s & c & i & x & _ & _ & _ & ->)|(_ & N & _)]; [|congruence].
    unfold strings_for, index_for, other, set_queue, set_index. destruct (m =? WriteMode); auto. }
  assert (Rot : forall m k q w tr q' w' tr', times k (add_conn (watch K) m) q (w, tr) = (q', (w', tr'), Ok tt) -> queue_of m q = [] -> index_for m q = 0 ->
     map pw_str (queue_of m q') = cycle (strings_for m q) 0 (length (queue_of m q'))).
  { intros m k q wa ta q' wb tb E Eq Ei. pose proof (times_trace _ _ _ _ _ _ _ _ _ E) as (cs & new & L & -> & _ & D & A & _).
    rewrite Eq in A. cbn [app] in A. rewrite A, L. destruct k as [|k]; [destruct cs; [reflexivity|discriminate]|].
    pose proof E as E0. apply rotation in E.
    - destruct E as (new' & En & D'). apply app_inv_tail in En. subst new'. rewrite <- D, D', Ei. reflexivity.
    - cbn [times] in E0. unfold bind, mbind, add_conn at 1, get in E0. destruct (strings_for m q); [discriminate|]. rewrite Ei. unfold zlen. cbn [length]. lia. }
  pose proof (Str _ _ _ _ _ _ _ _ Et) as (A1 & A2 & A3). pose proof (Str _ _ _ _ _ _ _ _ Es) as (B1 & B2 & _).
  pose proof (times_trace _ _ _ _ _ _ _ _ _ Et) as (ws & n2 & _ & _ & _ & _ & _ & C2).
  pose proof (times_trace _ _ _ _ _ _ _ _ _ Es) as (rs & n3 & _ & _ & _ & _ & _ & C3).
  change (strings_for WriteMode ?x) with (p_rw x) in *. change (strings_for ReadMode ?x) with (p_rs x) in *.
  change (strings_for (other WriteMode) ?x) with (p_rs x) in *. change (strings_for (other ReadMode) ?x) with (p_rw x) in *.
  change (queue_of (other WriteMode) ?x) with (p_rq x) in *. change (queue_of (other ReadMode) ?x) with (p_wq x) in *.
  change (index_for (other WriteMode) ?x) with (p_rs_index x) in *.
  rewrite B2, B1, A1, A2, C3. destruct ND. split; [assumption|]. split; [assumption|].
  change (p_wq p0) with (p_wq p) in Q1. change (p_rq p0) with (p_rq p) in Q2. change (p_rw_index p0) with (p_rw_index p) in X1. change (p_rs_index p0) with (p_rs_index p) in X2.
  split.
  - apply (Rot WriteMode _ _ _ _ _ _ _ Et); [change (p_wq p1 = []); congruence|change (p_rw_index p1 = 0); congruence].
  - rewrite <- A2. apply (Rot ReadMode _ _ _ _ _ _ _ Es); [change (p_rq p2 = []); congruence|change (p_rs_index p2 = 0); congruence].
Qed.

End Rotation.
