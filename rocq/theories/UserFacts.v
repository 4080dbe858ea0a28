(** Facts about goroutines that share a driver pool. *)
From Coq Require Import String ZArith List Bool Lia ZifyBool.
From Verif Require Import Bytes GoVal GoErr Messages Concurrency ConcurFacts DriverPool SpecDriver DriverFacts DriverHistory DriverUsers SpecUsers.
Import ListNotations.
Open Scope Z_scope.

Lemma left_put us : forall i u u', nth_error us i = Some u -> (all_left (put_nth i u' us) + steps_left u = all_left us + steps_left u')%nat.
Proof.
  induction us as [|x us IH]; intros [|i] u u'; cbn [nth_error put_nth all_left fold_right]; try discriminate.
  - intros [= ->]. lia.
  - intros H. specialize (IH _ _ u' H). unfold all_left in IH. lia.
Qed.

Section Run.
Context {W : Type}.
Variables (N : net W) (made : W -> list nat) (max : Z).
Hypothesis HF : fresh_net N made.
Notation WN := (watch_net N).

Lemma well_before w w' : after w w' -> well (snd w') -> well (snd (w : W * list nevent)).
Proof.
  intros A (X & Y & Z). unfold after in A. split; [|split].
  - intros c H. now apply (X c), A.
  - intros c. split; intros H; [apply (proj1 (Y c))|apply (proj2 (Y c))]; now apply A.
  - intros c e H. now apply (Z c e), A.
Qed.
(** Nobody is lent anything only if there is none to lend or none could be made. *)
Lemma lend_result d w h rf b d' w' r : dinv made max d w h rf b -> lend WN d w = (d', w', r) -> no_deaths (snd w') ->
  (exists c, r = DLent c) \/ r = DWait \/ exists x, In (NMake x) (snd w') /\ forall c, x <> Ok c.
Proof.
  intros I E Hd. destruct (q_idle (d_pool d)) as [|i0 rest] eqn:Ei.
  2:{ left. eapply lent_idle; [exact I|rewrite Ei; discriminate|exact E|exact Hd]. }
  unfold lend in E. rewrite (v_max _ _ _ _ _ _ _ I) in E. unfold borrow_fuel in E. rewrite Ei in E. cbn [length borrow_object set_waiting q_idle] in E. rewrite Ei in E. cbv zeta in E.
  destruct (create WN max (set_waiting false (d_pool d)) w) as [[g1 w1] rc] eqn:Ec.
  destruct (create_step N made max HF _ _ _ _ _ _ _ (inv_waiting _ _ _ _ _ _ _ false (v_inv _ _ _ _ _ _ _ I)) Ec) as (A & _ & _ & _ & D).
  destruct rc as [[i|]|e| |].
  - left. destruct D as (D1 & D2 & _). rewrite D2 in E.
    assert (L1 : (i < length (q_objs g1))%nat) by (apply obj_in; congruence). rewrite obj_set_same in E by exact L1. cbn [o_conn] in E.
    set (c := o_conn (obj g1 i)) in *. unfold activate_object in E.
    destruct (n_valid WN c w1) as [w2 v2] eqn:E2. pose proof (gvalid _ _ _ _ _ E2) as T2. destruct v2.
    + destruct (n_valid WN c w2) as [w3 v3] eqn:E3. pose proof (gvalid _ _ _ _ _ E3) as T3. destruct v3.
      * destruct (n_valid WN c w3) as [w4 v4] eqn:E4. pose proof (gvalid _ _ _ _ _ E4) as T4. injection E as <- <- <-. destruct v4; [eauto|]. exfalso. apply (Hd c). rewrite T4. now left.
      * exfalso. destruct (destroy WN i _ w3) as [[g5 w5] r5] eqn:Ed. apply grow_destroy in Ed. injection E as <- <- <-. apply (Hd c). apply Ed. rewrite T3. now left.
    + exfalso. apply (Hd c). destruct (n_make WN w2) as [w3 r3] eqn:Em. pose proof (after_cons _ _ _ (gmake _ _ _ _ Em)) as T3.
      assert (Q : In (NValid c false) (snd w3)) by (apply T3; rewrite T2; now left). destruct r3 as [c3|e3| |].
      * destruct (n_valid WN c3 w3) as [w4 v4] eqn:Ev4. pose proof (after_cons _ _ _ (gvalid _ _ _ _ _ Ev4)) as T4. destruct v4.
        -- destruct (n_valid WN c3 w4) as [w5 v5] eqn:Ev5. pose proof (after_cons _ _ _ (gvalid _ _ _ _ _ Ev5)) as T5. injection E as <- <- <-. now apply T5, T4.
        -- destruct (destroy WN i _ w4) as [[g5 w5] r5] eqn:Ed. apply grow_destroy in Ed. injection E as <- <- <-. now apply Ed, T4.
      * destruct (destroy WN i _ w3) as [[g5 w5] r5] eqn:Ed. apply grow_destroy in Ed. injection E as <- <- <-. now apply Ed.
      * injection E as <- <- <-. exact Q.
      * injection E as <- <- <-. exact Q.
  - right. left. injection E as <- <- <-. reflexivity.
  - right. right. injection E as <- <- <-. exists (Err e). split; [apply D|discriminate].
  - right. right. injection E as <- <- <-. exists Panic. split; [apply D|discriminate].
  - right. right. injection E as <- <- <-. exists NoFuel. split; [apply D|discriminate].
Qed.

Lemma nth_put {A} (l : list A) i u u' j : nth_error l i = Some u -> nth_error (put_nth i u' l) j = if Nat.eqb j i then Some u' else nth_error l j.
Proof.
  intros H. destruct (Nat.eqb_spec j i) as [->|X]; [eapply nth_put_same; exact H|apply nth_put_other; congruence].
Qed.
(** The pool knows who holds what and whether somebody waits; at most one does. *)
Record known (us : list user) (h : list nat) (b : bool) : Prop := mkKnown {
  kn_holds : forall c, In c h <-> exists i k, nth_error us i = Some (UHold c k);
  kn_one : forall i j c k k', nth_error us i = Some (UHold c k) -> nth_error us j = Some (UHold c k') -> i = j;
  kn_waits : b = true <-> exists i k, nth_error us i = Some (UWait k);
  kn_single : forall i j k k', nth_error us i = Some (UWait k) -> nth_error us j = Some (UWait k') -> i = j
}.
Definition holds (u : user) : list nat := match u with UHold c _ => [c] | _ => [] end.
Definition waits_now (u : user) : bool := match u with UWait _ => true | _ => false end.
(** One goroutine goes on: what it held is gone, what it holds now nobody held, and if it waits now nobody else did. *)
Lemma known_put us h b i u u' h' b' : known us h b -> nth_error us i = Some u ->
  (forall c, In c h' <-> (In c h /\ ~ In c (holds u)) \/ In c (holds u')) ->
  (forall c, In c (holds u') -> ~ In c h) ->
  (b' = if waits_now u' then true else if waits_now u then false else b) -> (waits_now u' = true -> waits_now u = false -> b = false) ->
  known (put_nth i u' us) h' b'.
Proof.
  intros [K1 K2 K3 K4] Hi Hh Hn Hb Hw. constructor.
  - intros c. rewrite Hh, K1. split.
    + intros [[(j & k & Hj) Hc]|Hc].
      * exists j, k. rewrite (nth_put _ _ _ _ _ Hi). destruct (Nat.eqb_spec j i) as [->|]; [|exact Hj]. rewrite Hi in Hj. injection Hj as ->. destruct Hc. now left.
      * destruct u'; try destruct Hc as []. subst c0. exists i, k. rewrite (nth_put _ _ _ _ _ Hi), Nat.eqb_refl. reflexivity. contradiction.
    + intros (j & k & Hj). rewrite (nth_put _ _ _ _ _ Hi) in Hj. destruct (Nat.eqb_spec j i) as [->|X].
      * injection Hj as ->. right. now left.
      * left. split; [eauto|]. intros Hc. destruct u; try destruct Hc as []; [subst c0|contradiction]. apply X. exact (K2 _ _ _ _ _ Hj Hi).
  - intros a j c k k' Ha Hj. rewrite (nth_put _ _ _ _ _ Hi) in Ha. rewrite (nth_put _ _ _ _ _ Hi) in Hj.
    destruct (Nat.eqb_spec a i) as [->|Xa], (Nat.eqb_spec j i) as [->|Xj]; auto.
    + injection Ha as ->. destruct (Hn c (or_introl eq_refl)). apply K1. eauto.
    + injection Hj as ->. destruct (Hn c (or_introl eq_refl)). apply K1. eauto.
    + exact (K2 _ _ _ _ _ Ha Hj).
  - rewrite Hb. split.
    + intros Hx. destruct (waits_now u') eqn:E'.
      * destruct u'; try discriminate. exists i, k. rewrite (nth_put _ _ _ _ _ Hi), Nat.eqb_refl. reflexivity.
      * destruct (waits_now u) eqn:E; [discriminate|]. apply K3 in Hx. destruct Hx as (j & k & Hj). exists j, k. rewrite (nth_put _ _ _ _ _ Hi).
        destruct (Nat.eqb_spec j i) as [->|]; [|exact Hj]. rewrite Hi in Hj. injection Hj as ->. discriminate.
    + intros (j & k & Hj). rewrite (nth_put _ _ _ _ _ Hi) in Hj. destruct (Nat.eqb_spec j i) as [->|X].
      * injection Hj as ->. reflexivity.
      * destruct (waits_now u') eqn:E'; [reflexivity|]. destruct (waits_now u) eqn:E; [|apply K3; eauto].
        destruct u; try discriminate. destruct X. exact (K4 _ _ _ _ Hj Hi).
  - intros a j k k' Ha Hj. rewrite (nth_put _ _ _ _ _ Hi) in Ha. rewrite (nth_put _ _ _ _ _ Hi) in Hj.
    assert (Q : forall a k k', a <> i -> u' = UWait k -> nth_error us a = Some (UWait k') -> False).
    { intros a0 k0 k1 Xa -> Ha0. cbn in Hw. destruct (waits_now u) eqn:E.
      - destruct u; try discriminate. apply Xa. exact (K4 _ _ _ _ Ha0 Hi).
      - specialize (Hw eq_refl eq_refl). assert (b = true) by (apply K3; eauto). congruence. }
    destruct (Nat.eqb_spec a i) as [->|Xa], (Nat.eqb_spec j i) as [->|Xj]; auto.
    + injection Ha as Ha. destruct (Q _ _ _ Xj Ha Hj).
    + injection Hj as Hj. destruct (Q _ _ _ Xa Hj Ha).
    + exact (K4 _ _ _ _ Ha Hj).
Qed.

Record shared (d : dpool) (w : W * list nevent) (us : list user) (h rf : list nat) (b : bool) : Prop := mkShared {
  sh_inv : dinv made max d w h rf b;
  sh_known : known us h b;
  sh_full : b = true -> q_idle (d_pool d) = [] -> 0 <= max <= q_count (d_pool d)
}.
(** A goroutine that is not given a connection was told that the pool is closed or that no connection could be made. *)
Definition excused (d : dpool) (w : W * list nevent) (u : user) : Prop :=
  u = UClose \/ d_closed d = true \/ exists x, In (NMake x) (snd w) /\ forall c, x <> Ok c.
Lemma user_shared d w us h rf b i u d' w' u' : shared d w us h rf b -> nth_error us i = Some u -> user_step WN u d w = Some (d', w', u') -> well (snd w') ->
  exists h' rf' b', shared d' w' (put_nth i u' us) h' rf' b' /\ after w w' /\ (steps_left u' < steps_left u)%nat
  /\ ((exists r, u' = UFail r) -> excused d w' u) /\ (d_closed d' = true -> d_closed d = true \/ u = UClose).
Proof.
  intros [I K F] Hi E Wl. destruct u as [[|k]|k|c k| |r]; cbn [user_step] in E; try discriminate.
  - (* Open *)
    destruct (q_waiting (d_pool d)) eqn:Ew; [discriminate|]. assert (b = false) by (destruct I; congruence). subst b.
    unfold pool_open in E. rewrite Ew in E. destruct (d_closed d) eqn:Ec.
    { injection E as <- <- <-. exists h, rf, false. split; [|split; [apply after_refl|split; [cbn; lia|split; [|now left]]]].
      - constructor; auto. eapply known_put; eauto; cbn; try tauto; try discriminate; intuition.
      - right. left. exact Ec. }
    destruct (lend WN d w) as [[d1 w1] r1] eqn:El. injection E as <- <- <-.
    destruct (lend_step N made max HF _ _ _ _ _ _ _ _ I Ec El) as (I1 & A1 & L1 & C1 & Q1).
    destruct (lend_result _ _ _ _ _ _ _ _ I El (proj1 Wl)) as [(c & ->)|[->|Hx]].
    + exists (c :: h), rf, false. split; [|split; [exact A1|split; [cbn; lia|split; [intros (? & X); discriminate|rewrite C1; discriminate]]]].
      constructor; [exact I1| |discriminate]. eapply known_put; eauto; cbn; try discriminate; intros x; cbn in L1; intuition congruence.
    + exists h, rf, true. split; [|split; [exact A1|split; [cbn; lia|split; [intros (? & X); discriminate|rewrite C1; discriminate]]]].
      constructor; [exact I1| |]. * eapply known_put; eauto; cbn; try discriminate; try tauto; intros x; intuition. * intros _ _. destruct (Q1 eq_refl). lia.
    + destruct r1 as [c|e| | | |].
      * exists (c :: h), rf, false. split; [|split; [exact A1|split; [cbn; lia|split; [intros (? & X); discriminate|rewrite C1; discriminate]]]].
        constructor; [exact I1| |discriminate]. eapply known_put; eauto; cbn; try discriminate; intros x; cbn in L1; intuition congruence.
      * exists h, rf, false. split; [|split; [exact A1|split; [cbn; lia|split; [intros _; right; right; exact Hx|rewrite C1; discriminate]]]].
        constructor; [exact I1| |discriminate]. eapply known_put; eauto; cbn; try discriminate; try tauto; intros x; intuition.
      * exists h, rf, false. split; [|split; [exact A1|split; [cbn; lia|split; [intros _; right; right; exact Hx|rewrite C1; discriminate]]]].
        constructor; [exact I1| |discriminate]. eapply known_put; eauto; cbn; try discriminate; try tauto; intros x; intuition.
      * exists h, rf, true. split; [|split; [exact A1|split; [cbn; lia|split; [intros (? & X); discriminate|rewrite C1; discriminate]]]].
        constructor; [exact I1| |]. -- eapply known_put; eauto; cbn; try discriminate; try tauto; intros x; intuition. -- intros _ _. destruct (Q1 eq_refl). lia.
      * exists h, rf, false. split; [|split; [exact A1|split; [cbn; lia|split; [intros _; right; right; exact Hx|rewrite C1; discriminate]]]].
        constructor; [exact I1| |discriminate]. eapply known_put; eauto; cbn; try discriminate; try tauto; intros x; intuition.
      * exists h, rf, false. split; [|split; [exact A1|split; [cbn; lia|split; [intros _; right; right; exact Hx|rewrite C1; discriminate]]]].
        constructor; [exact I1| |discriminate]. eapply known_put; eauto; cbn; try discriminate; try tauto; intros x; intuition.
  - (* the goroutine that waits goes on *)
    destruct (q_idle (d_pool d)) as [|i0 rest] eqn:Ei; [discriminate|].
    assert (b = true) by (apply (kn_waits _ _ _ K); eauto). subst b.
    assert (Ew : q_waiting (d_pool d) = true) by (destruct I; congruence).
    assert (Ec : d_closed d = false) by (destruct I as [V1 V2 V3 V4 V5]; destruct (d_closed d); [destruct (V4 eq_refl); congruence|reflexivity]).
    unfold pool_wake in E. rewrite Ew, Ei in E. destruct (lend WN d w) as [[d1 w1] r1] eqn:El. injection E as <- <- <-.
    destruct (lend_step N made max HF _ _ _ _ _ _ _ _ I Ec El) as (I1 & A1 & L1 & C1 & Q1).
    destruct (lent_idle N made max _ _ _ _ _ _ _ _ I ltac:(rewrite Ei; discriminate) El (proj1 Wl)) as (c & ->).
    exists (c :: h), rf, false. split; [|split; [exact A1|split; [cbn; lia|split; [intros (? & X); discriminate|rewrite C1; discriminate]]]].
    constructor; [exact I1| |discriminate]. eapply known_put; eauto; cbn; try discriminate; intros x; cbn in L1; intuition congruence.
  - (* Reclaim *)
    assert (Hc : In c h) by (apply (kn_holds _ _ _ K); eauto).
    destruct (pool_reclaim WN (Some c) d w) as [[d1 w1] r1] eqn:Er. injection E as <- <- <-.
    destruct (event_step N made max HF (EvReclaim (Some c)) _ _ _ _ _ _ _ _ I Hc Er) as (I1 & A1 & _).
    pose proof Er as Er'. cbn [pool_reclaim] in Er'. rewrite (v_max _ _ _ _ _ _ _ I) in Er'.
    destruct (return_object WN max c (d_pool d) w) as [[g1 w2] r2] eqn:Eo. injection Er' as <- <- Hr.
    destruct (given_back N made max HF _ _ _ _ _ _ _ _ (v_inv _ _ _ _ _ _ _ I) Hc Eo (proj1 Wl) (proj1 (proj2 Wl))) as [-> Hidle]. subst r1. cbn in I1.
    exists (drop c h), rf, b. split; [|split; [exact A1|split; [cbn; lia|split; [intros (? & X); discriminate|cbn; now left]]]].
    constructor; [exact I1| |].
    + eapply known_put; eauto; cbn; try discriminate; try tauto. intros x. rewrite in_drop. intuition congruence.
    + intros -> X. cbn in X. exfalso. apply Hidle; [apply Wl| |exact X].
      assert (Ew : q_waiting (d_pool d) = true) by (destruct I; congruence). rewrite (v_closed _ _ _ _ _ _ _ I).
      destruct I as [V1 V2 V3 V4 V5]; destruct (d_closed d); [destruct (V4 eq_refl); congruence|reflexivity].
  - (* Close *)
    destruct (q_waiting (d_pool d)) eqn:Ew; [discriminate|]. assert (b = false) by (destruct I; congruence). subst b.
    destruct (pool_close WN d w) as [[d1 w1] r1] eqn:Er. injection E as <- <- <-.
    destruct (event_step N made max HF EvClose _ _ _ _ _ _ _ _ I Coq.Init.Logic.I Er) as (I1 & A1 & _).
    assert (Hr : held_after (EvClose, r1) h = h /\ refused_after (EvClose, r1) rf = rf /\ waiting_after (EvClose, r1) false = false /\ exists u, u = match r1 with DDone => URest 0 | _ => UFail r1 end /\ holds u = [] /\ waits_now u = false /\ steps_left u = 0%nat).
    { unfold pool_close in Er. rewrite Ew in Er. destruct (d_closed d); [injection Er as <- <- <-; cbn; eauto 9|]. destruct (close_object_pool WN (d_pool d) w). injection Er as <- <- <-. cbn; eauto 9. }
    destruct Hr as (R1 & R2 & R3 & u' & R4 & R5 & R6 & R7). rewrite <- R4. rewrite R1, R2, R3 in I1.
    exists h, rf, false. split; [|split; [exact A1|split; [cbn; lia|split; [intros _; now left|intros _; now right]]]].
    constructor; [exact I1| |discriminate]. eapply known_put; eauto; rewrite ?R5, ?R6; cbn; try discriminate; try tauto; intros x; intuition.
Qed.
Lemma grow_lend d w d' w' r : lend WN d w = (d', w', r) -> after w w'.
Proof.
  unfold lend. destruct (borrow_object WN _ _ _ w) as [[g1 w1] r1] eqn:E. apply grow_borrow in E. destruct r1; try (intros [= <- <- <-]; exact E).
  destruct (n_valid WN c w1) as [w2 v] eqn:Ev. apply gvalid in Ev. intros [= <- <- <-]. eapply after_trans; [exact E|eapply after_cons; exact Ev].
Qed.
Lemma grow_return c g w g' w' r m : return_object WN m c g w = (g', w', r) -> after w w'.
Proof.
  unfold return_object. destruct (find_obj c (q_all g)) as [i|]; [|intros [= <- <- <-]; apply after_refl].
  destruct (o_state (obj g i)); try (intros [= <- <- <-]; apply after_refl). cbv zeta. set (g2 := set_obj i _ g). set (x := o_conn (obj g2 i)).
  destruct (n_valid WN x w) as [w1 v] eqn:Ev. apply gvalid, after_cons in Ev.
  assert (F : forall w3, after w w3 -> (let '(g, w, _) := destroy WN i g2 w3 in let '(g, w) := ensure_idle WN m g w in (g, w, Ok tt)) = (g', w', r) -> after w w').
  { intros w3 A. destruct (destroy WN i g2 w3) as [[g3 w4] r3] eqn:Ed. apply grow_destroy in Ed. destruct (ensure_idle WN m g3 w4) as [g4 w5] eqn:Ee. apply grow_ensure in Ee.
    intros [= <- <- <-]. eauto using after_trans. }
  destruct v; [|now apply F]. unfold passivate_object. destruct (n_idle WN x w1) as [w2 ri] eqn:En. apply gidle, after_cons in En.
  assert (A : after w w2) by eauto using after_trans.
  destruct ri as [[]|e| |]; try (intros [= <- <- <-]; exact A); [|now apply F].
  destruct (_ || _); [|intros [= <- <- <-]; exact A]. destruct (destroy WN i _ w2) as [[g3 w4] r3] eqn:Ed. apply grow_destroy in Ed. intros [= <- <- <-]. eauto using after_trans.
Qed.
Lemma grow_clear l : forall g w g' w', clear WN l g w = (g', w') -> after w w'.
Proof.
  induction l as [|i l IH]; intros g w g' w' E; cbn [clear] in E; [injection E as <- <-; apply after_refl|].
  destruct (destroy WN i (set_idle l g) w) as [[g1 w1] r1] eqn:Ed. apply grow_destroy in Ed. apply IH in E. eauto using after_trans.
Qed.
Lemma grow_user u d w d' w' u' : user_step WN u d w = Some (d', w', u') -> after w w'.
Proof.
  destruct u as [[|k]|k|c k| |r]; cbn [user_step]; try discriminate.
  - destruct (q_waiting (d_pool d)) eqn:Ew; [discriminate|]. unfold pool_open. rewrite Ew. destruct (d_closed d); [intros [= <- <- <-]; apply after_refl|].
    destruct (lend WN d w) as [[d1 w1] r1] eqn:E. apply grow_lend in E. intros [= <- <- <-]. exact E.
  - unfold pool_wake. destruct (q_idle (d_pool d)); [discriminate|]. destruct (q_waiting (d_pool d)); [|intros [= <- <- <-]; apply after_refl].
    destruct (lend WN d w) as [[d1 w1] r1] eqn:E. apply grow_lend in E. intros [= <- <- <-]. exact E.
  - cbn [pool_reclaim]. destruct (return_object WN (d_max d) c (d_pool d) w) as [[g1 w1] r1] eqn:E. apply grow_return in E. intros [= <- <- <-]. exact E.
  - destruct (q_waiting (d_pool d)) eqn:Ew; [discriminate|]. unfold pool_close. rewrite Ew. destruct (d_closed d); [intros [= <- <- <-]; apply after_refl|].
    unfold close_object_pool. destruct (q_closed (d_pool d)); [intros [= <- <- <-]; apply after_refl|].
    destruct (clear WN _ _ w) as [g1 w1] eqn:E. apply grow_clear in E. intros [= <- <- <-]. exact E.
Qed.
Lemma grow_users is : forall d w us d' w' us', users_run WN is d w us = Some (d', w', us') -> after w w'.
Proof.
  induction is as [|i is IH]; intros d w us d' w' us' E; cbn [users_run] in E; [injection E as <- <- <-; apply after_refl|].
  destruct (nth_error us i) as [u|]; [|discriminate]. destruct (user_step WN u d w) as [[[d1 w1] u1]|] eqn:Es; [|discriminate].
  apply grow_user in Es. apply IH in E. eauto using after_trans.
Qed.
Lemma in_put {A} (x u : A) l : forall i, In x (put_nth i u l) -> x = u \/ In x l.
Proof. induction l as [|a l IH]; intros [|i] H; cbn in *; intuition. apply IH in H0. tauto. Qed.
Lemma users_shared is : forall d w us h rf b d' w' us', shared d w us h rf b -> users_run WN is d w us = Some (d', w', us') -> well (snd w') ->
  (exists h' rf' b', shared d' w' us' h' rf' b') /\ (length is + all_left us' <= all_left us)%nat
  /\ (d_closed d = false -> ~ In UClose us -> (forall x, In (NMake x) (snd w') -> exists c, x = Ok c) ->
      forall r, In (UFail r) us' -> In (UFail r) us).
Proof.
  induction is as [|i is IH]; intros d w us h rf b d' w' us' Sh E Wl; cbn [users_run] in E.
  { injection E as <- <- <-. split; [eauto|]. split; [cbn; lia|auto]. }
  destruct (nth_error us i) as [u|] eqn:Hi; [|discriminate]. destruct (user_step WN u d w) as [[[d1 w1] u1]|] eqn:Es; [|discriminate].
  pose proof (grow_users _ _ _ _ _ _ _ E) as A1. pose proof (well_before _ _ A1 Wl) as W1.
  destruct (user_shared _ _ _ _ _ _ _ _ _ _ _ Sh Hi Es W1) as (h1 & rf1 & b1 & Sh1 & _ & Lt & Ex & Cl).
  destruct (IH _ _ _ _ _ _ _ _ _ Sh1 E Wl) as (X & Y & Z). split; [exact X|]. split.
  - pose proof (left_put _ _ _ u1 Hi). cbn [length]. lia.
  - intros Hc Hu Hm r Hr. assert (Nu : u <> UClose) by (intros ->; apply Hu; eapply nth_error_In; exact Hi).
    assert (Hc1 : d_closed d1 = false) by (destruct (d_closed d1) eqn:Q; [destruct (Cl eq_refl); [congruence|contradiction]|reflexivity]).
    assert (Ne : ~ excused d w1 u) by (intros [Q|[Q|(x & Q & Q')]]; [contradiction|congruence|apply A1 in Q; apply Hm in Q; destruct Q as (c & ->); now apply (Q' c)]).
    assert (Hu1 : ~ In UClose (put_nth i u1 us)).
    { intros Q. apply in_put in Q. destruct Q as [Q|Q]; [|contradiction]. subst u1.
      destruct u as [[|k]|k|c k| |r0]; cbn [user_step] in Es; try discriminate; try congruence.
      - destruct (q_waiting (d_pool d)); [discriminate|]. destruct (pool_open WN d w) as [[? ?] []]; discriminate.
      - destruct (q_idle (d_pool d)); [discriminate|]. destruct (pool_wake WN d w) as [[? ?] []]; discriminate.
      - destruct (pool_reclaim WN (Some c) d w) as [[? ?] []]; discriminate. }
    specialize (Z Hc1 Hu1 Hm r Hr). apply in_put in Z. destruct Z as [Z|Z]; [|exact Z]. subst u1. destruct Ne. apply Ex. eauto.
Qed.

Lemma new_shared w0 us : (forall u, In u us -> begins u) -> shared (new_driver_pool max) (w0, []) us [] [] false.
Proof.
  intros H. constructor; [apply new_inv| |discriminate].
  assert (Q : forall i u, nth_error us i = Some u -> begins u) by (intros i u X; apply H; eapply nth_error_In; exact X). constructor.
  - intros c. split; [intros []|intros (i & k & X); destruct (Q _ _ X)].
  - intros i j c k k' X. destruct (Q _ _ X).
  - split; [discriminate|]. intros (i & k & X). destruct (Q _ _ X).
  - intros i j k k' X. destruct (Q _ _ X).
Qed.
(** ** The theorems *)
Theorem users_go_on w0 us is d w us' : max <> 0 -> (forall u, In u us -> begins u) -> users_run WN is (new_driver_pool max) (w0, []) us = Some (d, w, us') ->
  well (snd w) -> (exists u, In u us' /\ at_rest u = false) -> exists i x, users_run WN [i] d w us' = Some x.
Proof.
  intros Hm Hb E Wl (u & Hu & Ha). destruct (users_shared _ _ _ _ _ _ _ _ _ _ (new_shared w0 us Hb) E Wl) as ((h & rf & b & [I K F]) & _).
  assert (Go : forall i u, nth_error us' i = Some u -> (exists x, user_step WN u d w = Some x) -> exists i x, users_run WN [i] d w us' = Some x).
  { intros i v Hi ([[d1 w1] u1] & Hx). exists i. cbn [users_run]. rewrite Hi, Hx. eauto. }
  destruct h as [|c h].
  2:{ destruct (proj1 (kn_holds _ _ _ K c) (or_introl eq_refl)) as (i & k & Hi). apply (Go i _ Hi). cbn [user_step]. destruct (pool_reclaim WN (Some c) d w) as [[? ?] ?]. eauto. }
  destruct b.
  - destruct (proj1 (kn_waits _ _ _ K) eq_refl) as (i & k & Hi). apply (Go i _ Hi). cbn [user_step].
    destruct (q_idle (d_pool d)) as [|j rest] eqn:Ei; [|destruct (pool_wake WN d w) as [[? ?] ?]; eauto].
    exfalso. pose proof (full_bound made max _ _ _ _ (v_inv _ _ _ _ _ _ _ I) Ei (proj1 Wl) (proj1 (proj2 Wl))) as B. specialize (F eq_refl eq_refl). cbn in B. lia.
  - apply In_nth_error in Hu. destruct Hu as (i & Hi). apply (Go i _ Hi).
    assert (Ew : q_waiting (d_pool d) = false) by (destruct I; congruence).
    destruct u as [[|k]|k|c k| |r]; cbn [at_rest] in Ha; try discriminate; cbn [user_step]; rewrite ?Ew.
    + destruct (pool_open WN d w) as [[? ?] ?]; eauto.
    + assert (false = true) by (apply (kn_waits _ _ _ K); eauto). discriminate.
    + assert (In c []) by (apply (kn_holds _ _ _ K); eauto). contradiction.
    + destruct (pool_close WN d w) as [[? ?] ?]; eauto.
Qed.
Theorem users_end w0 us is d w us' : (forall u, In u us -> begins u) -> users_run WN is (new_driver_pool max) (w0, []) us = Some (d, w, us') ->
  well (snd w) -> (length is <= all_left us)%nat.
Proof.
  intros Hb E Wl. destruct (users_shared _ _ _ _ _ _ _ _ _ _ (new_shared w0 us Hb) E Wl) as (_ & L & _). lia.
Qed.
Theorem users_served w0 us is d w us' r : (forall u, In u us -> exists k, u = URest k) -> users_run WN is (new_driver_pool max) (w0, []) us = Some (d, w, us') ->
  well (snd w) -> (forall x, In (NMake x) (snd w) -> exists c, x = Ok c) -> ~ In (UFail r) us'.
Proof.
  intros Hb E Wl Hm Hr.
  assert (Hb' : forall u, In u us -> begins u) by (intros u Hu; destruct (Hb u Hu) as (k & ->); exact Coq.Init.Logic.I).
  destruct (users_shared _ _ _ _ _ _ _ _ _ _ (new_shared w0 us Hb') E Wl) as (_ & _ & L).
  assert (X : In (UFail r) us). { apply L; auto. intros X. destruct (Hb _ X) as (k & Y). discriminate. }
  destruct (Hb _ X) as (k & Y). discriminate.
Qed.
End Run.

(** A pool of size 0: whoever opens first waits for ever, and so do all others. *)
Section Nothing.
Context {W : Type}.
Variable N : net W.
Theorem size_zero w us k i : nth_error us i = Some (URest (S k)) -> (forall u, In u us -> begins u) ->
  exists d us', users_run N [i] (new_driver_pool 0) w us = Some (d, w, us') /\ nth_error us' i = Some (UWait k)
  /\ forall j, users_run N [j] d w us' = None.
Proof.
  intros Hi Hb. cbn [users_run]. rewrite Hi. cbn [user_step new_driver_pool d_pool q_waiting pool_open d_closed].
  unfold lend, borrow_fuel. cbn -[put_nth]. eexists _, _. split; [reflexivity|]. split; [eapply nth_put_same; exact Hi|].
  intros j. destruct (nth_error (put_nth i (UWait k) us) j) as [u|] eqn:Hj; [|reflexivity].
  rewrite (nth_put _ _ _ _ _ Hi) in Hj. destruct (Nat.eqb j i).
  - injection Hj as <-. reflexivity.
  - assert (B : begins u) by (apply Hb; eapply nth_error_In; exact Hj). destruct u as [[|?]|?|? ?| |?]; try contradiction; reflexivity.
Qed.
End Nothing.

(** Giving back fails to make the connection idle and no other can be made then: nobody holds anything, and the one who waits is forgotten. *)
Definition once : net nat := mkNet (fun w => (S w, match w with O => Ok 0%nat | S _ => Err (EIO 1) end)) (fun _ w => (w, true)) (fun _ w => (w, Ok tt)) (fun _ w => (w, Err (EIO 2))).
Lemma once_fresh : fresh_net once (fun w => seq 0 w).
Proof.
  constructor; intros; cbn [once n_make n_valid n_close n_idle fst] in *; try apply incl_refl.
  - intros x H. apply in_seq in H. apply in_seq. lia.
  - destruct w; [|discriminate]. injection H as <- <-. cbn. split; [tauto|auto].
Qed.
Theorem waits_forgotten : exists W (N : net W) made w0 is d w us', fresh_net N made
  /\ users_run (watch_net N) is (new_driver_pool 1) (w0, []) [URest 1; URest 1] = Some (d, w, us')
  /\ no_deaths (snd w) /\ no_hangs (snd w) /\ us' = [URest 0; UWait 0] /\ forall w j, users_run (watch_net N) [j] d w us' = None.
Proof.
  pose (x := users_run (watch_net once) [0; 1; 0]%nat (new_driver_pool 1) (0%nat, []) [URest 1; URest 1]).
  exists nat, once, (fun w => seq 0 w), 0%nat, [0; 1; 0]%nat.
  exists (match x with Some (d, _, _) => d | None => new_driver_pool 1 end), (match x with Some (_, w, _) => w | None => (0%nat, []) end), (match x with Some (_, _, us) => us | None => [] end).
  split; [exact once_fresh|]. split; [vm_compute; reflexivity|].
  split; [intros c; vm_compute; intuition discriminate|]. split; [intros c; vm_compute; intuition discriminate|]. split; [vm_compute; reflexivity|].
  intros w [|[|j]]; [vm_compute; reflexivity|vm_compute; reflexivity|]. cbn. now destruct j.
Qed.
