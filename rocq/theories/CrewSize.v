(** The size of a routing pool bounds its idle and its borrowed connections together (C140). *)
From Coq Require Import String ZArith List Bool Lia ZifyBool.
From Verif Require Import Bytes GoVal GoErr Decoder Messages GoStr Routing Pool SpecPool BytesFacts RoutingFacts PoolFacts LendFacts SteadyFacts SizeFacts LimitFacts SpecManners SpecBooks SpecThrong ThrongFacts PoolRace SpecCrew CrewFacts.
Import ListNotations.
Open Scope Z_scope.

Section Size.
Context {W : Type}.
Variable K : cluster W.
Definition maxima (p : pool) := (p_max_w p, p_max_r p).
Lemma max_queue m q p : maxima (set_queue m q p) = maxima p.
Proof. unfold set_queue. destruct (m =? WriteMode); reflexivity. Qed.
Lemma max_step o p w p' w' r : do_pop K o p w = (p', w', r) -> p_lookup p = [] -> p_marked p = [] ->
  maxima p' = maxima p \/ maxima p' = (write_share (p_total p), read_share (p_total p)).
Proof.
  intros E Hl Hm. destruct o as [| |m|id h|]; cbn [do_pop] in E.
  - destruct (start_pool K p w) as [[p1 w1] r1] eqn:Es. injection E as <- _ _. unfold start_pool, get in Es.
    destruct (p_running p); [left; now injection Es as <- _ _|]. right. unfold bind, mbind, upd in Es.
    destruct (refresh_connections K _ w) as [[p2 w2] r2] eqn:Er. apply steady_refresh in Er; [|exact Hl]. destruct Er as (_ & _ & R1 & R2 & _). unfold maxima.
    destruct r2; try (injection Es as <- _ _; now rewrite R1, R2).
    destruct (times _ (add_conn K WriteMode) p2 w2) as [[p3 w3] r3] eqn:Et. apply steady_times in Et. destruct Et as (_ & _ & T1 & T2).
    destruct r3; try (injection Es as <- _ _; now rewrite T1, T2, R1, R2). apply steady_times in Es. destruct Es as (_ & _ & U1 & U2). now rewrite U1, U2, T1, T2, R1, R2.
  - left. destruct (stop_pool K p w) as [[p1 w1] r1] eqn:Es. injection E as <- _ _. unfold stop_pool, get in Es.
    destruct (p_running p); [|now injection Es as <- _ _]. cbn [negb] in Es. unfold bind, mbind, upd in Es.
    destruct (drain K _ ReadMode _ w) as [[p2 w2] r2] eqn:Er. apply steady_drain in Er; [|cbn; lia]. destruct Er as (_ & _ & R1 & R2 & _ & Q & _). cbn in Q. unfold maxima.
    destruct r2; try (injection Es as <- _ _; now rewrite R1, R2). apply steady_drain in Es; [|cbn; rewrite Q; lia]. destruct Es as (_ & _ & U1 & U2 & _). now rewrite U1, U2, R1, R2.
  - left. destruct (borrow K _ p w) as [[p1 w1] r1] eqn:Es. injection E as <- _ _. unfold borrow, get in Es.
    eapply (borrow_eff K anyw) in Es; auto using anyw_all.
    destruct Es as (_ & sk & rest & x & Eq & [(c & rest' & _ & _ & _ & ->)|[_ ->]]); exact (max_queue _ _ p).
  - left. destruct (reclaim K id h p w) as [[p1 w1] r1] eqn:Es. injection E as <- _ _. eapply (reclaim_eff K anyw) in Es; auto using anyw_all.
    destruct Es as [(_ & -> & _)|(_ & c & x & _ & [(_ & _ & ->)|(w2 & e & w0 & _ & _ & _ & Ea)])]; [reflexivity|exact (max_queue _ _ _)|].
    apply steady_add in Ea. destruct Ea as (_ & _ & U1 & U2). unfold maxima. now rewrite U1, U2.
  - left. destruct (refresh_round K p w) as [[p1 w1] r1] eqn:Es. injection E as <- _ _. unfold refresh_round, bind, mbind in Es.
    destruct (refresh_connections K p w) as [[p2 w2] r2] eqn:Er. apply steady_refresh in Er; [|exact Hl]. destruct Er as (Er & _ & R1 & R2 & _).
    assert (M2 : p_marked p2 = []) by (unfold SteadyFacts.steady in Er; congruence). unfold maxima.
    destruct r2; try (injection Es as <- _ _; now rewrite R1, R2).
    rewrite (prune_nothing _ p2 w2 M2) in Es. rewrite balance_nothing in Es by lia. injection Es as <- _ _. now rewrite R1, R2.
Qed.
Lemma max_run os : forall p w p' w' l, run_pool K os p w = (p', w', l) -> p_lookup p = [] -> p_marked p = [] -> sized_up p -> sized_up p'.
Proof.
  induction os as [|o os IH]; intros p w p' w' l; cbn [run_pool]; [now intros [= <- _ _]|].
  destruct (do_pop K o p w) as [[p1 w1] r] eqn:E1. destruct (run_pool K os p1 w1) as [[p2 w2] l'] eqn:E2. intros [= <- _ _] Hl Hm Hs.
  pose proof (max_step _ _ _ _ _ _ E1 Hl Hm) as M. pose proof (steady_step K _ _ _ _ _ _ E1 Hl Hm) as St.
  assert (Et : p_total p1 = p_total p) by (unfold SteadyFacts.steady in St; congruence).
  apply (IH _ _ _ _ _ E2); [unfold SteadyFacts.steady in St; congruence..|]. unfold sized_up, maxima in *. rewrite Et. intros H2.
  destruct M as [[= -> ->]|[= -> ->]]; [auto|]. rewrite write_share_spec, read_share_spec by exact H2. lia.
Qed.
Theorem pool_places n auth tls w0 l p w : 2 <= n -> pool_history K n auth tls w0 l p w -> no_restart false (map fst l) ->
  Z.of_nat (length (idle p) + length (p_borrowed p)) <= n.
Proof.
  intros Hn (leader & p0 & En & Er) Hr. destruct (limited_run K _ _ _ _ _ _ _ Er Hr (limited_new _ _ _ _ _ Hn En)) as [b []].
  assert (M : p_max_w p0 = 0 /\ p_max_r p0 = 0 /\ p_total p0 = n /\ p_lookup p0 = [] /\ p_marked p0 = [])
    by (unfold new_routing_pool in En; destruct (bytes_eqb leader []); [discriminate|]; destruct (_ || _); [discriminate|]; injection En as <-; auto).
  destruct M as (M1 & M2 & M3 & M4 & M5). pose proof (steady_run K _ _ _ _ _ _ Er M4 M5) as St. apply max_run in Er; [|exact M4|exact M5|unfold sized_up; lia].
  assert (Et : p_total p = n) by (unfold SteadyFacts.steady in St; congruence). specialize (Er l_total).
  pose proof (l_load WriteMode (or_introl eq_refl)) as A. pose proof (l_load ReadMode (or_intror eq_refl)) as B.
  pose proof (of_both _ l_lent) as C. unfold load, limit, queue_of in A, B. cbn in A, B. unfold idle. rewrite !app_length, !map_length. unfold zlen in *. lia.
Qed.
(** The limits of any pool, however it was used. *)
Lemma pool_sized n auth tls w0 l p w : 2 <= n -> pool_history K n auth tls w0 l p w -> sized ((n + 1) / 2) (n / 2) p.
Proof.
  intros Hn (leader & p0 & En & Er).
  assert (M : maxima p0 = (0, 0) /\ p_total p0 = n /\ p_lookup p0 = [] /\ p_marked p0 = [] /\ p_min_w p0 = 0 /\ p_min_r p0 = 0)
    by (unfold new_routing_pool in En; destruct (bytes_eqb leader []); [discriminate|]; destruct (_ || _); [discriminate|]; injection En as <-; repeat split; auto).
  destruct M as (M1 & M3 & M4 & M5 & M6 & M7).
  assert (R : forall os p0 w0 p w l, run_pool K os p0 w0 = (p, w, l) -> p_lookup p0 = [] -> p_marked p0 = [] -> p_total p0 = n -> (maxima p0 = (0, 0) \/ maxima p0 = (write_share n, read_share n)) ->
    maxima p = (0, 0) \/ maxima p = (write_share n, read_share n)).
  { clear - Hn. induction os as [|o os IH]; intros p0 w0 p w l; cbn [run_pool]; [now intros [= <- _ _]|].
    destruct (do_pop K o p0 w0) as [[p1 w1] r] eqn:E1. destruct (run_pool K os p1 w1) as [[p2 w2] l'] eqn:E2. intros [= <- _ _] Hl Hm Ht Hs.
    pose proof (max_step _ _ _ _ _ _ E1 Hl Hm) as M. pose proof (steady_step K _ _ _ _ _ _ E1 Hl Hm) as St. unfold SteadyFacts.steady in St. rewrite Ht in M.
    apply (IH _ _ _ _ _ E2); [congruence..|]. destruct M as [->| ->]; auto. }
  pose proof (R _ _ _ _ _ _ Er M4 M5 M3 (or_introl M1)) as Mx. pose proof (steady_run K _ _ _ _ _ _ Er M4 M5) as St. unfold SteadyFacts.steady in St.
  assert (Et : p_total p = n) by congruence. assert (E1 : p_min_w p = 0) by congruence. assert (E2 : p_min_r p = 0) by congruence.
  unfold sized. rewrite Et, E1, E2, write_share_spec, read_share_spec in * by exact Hn. unfold maxima in Mx.
  assert (P1 : 0 <= (n + 1) / 2) by (apply Z.div_pos; lia). assert (P2 : 0 <= n / 2) by (apply Z.div_pos; lia).
  destruct Mx as [[= -> ->]|[= -> ->]]; lia.
Qed.
Lemma both_shares n : 2 <= n -> (Z.to_nat ((n + 1) / 2) + Z.to_nat (n / 2))%nat = Z.to_nat n.
Proof. intros Hn. assert (P1 : 0 <= (n + 1) / 2) by (apply Z.div_pos; lia). assert (P2 : 0 <= n / 2) by (apply Z.div_pos; lia). lia. Qed.
Theorem crew_starts n auth tls w0 l p w ts is x : 2 <= n -> pool_history K n auth tls w0 l p w -> gschedule K is (mkG p w (mkRW false 0) (map work ts)) = Some x ->
  Z.of_nat (length (idle (g_pool x)) + length (p_borrowed (g_pool x))) <= Z.of_nat (length (idle p) + length (p_borrowed p)) + Z.of_nat (length (filter starting ts)) * n.
Proof.
  intros Hn H E. pose proof (more_by_starts K _ _ p w ts is x (pool_sized _ _ _ _ _ _ _ Hn H) E) as L. rewrite both_shares in L by exact Hn. nia.
Qed.
Theorem crew_starts_held n auth tls w0 l p w ts is x : 2 <= n -> pool_history K n auth tls w0 l p w -> (forall t, In t ts -> ~ returns t) ->
  gschedule K is (mkG p w (mkRW false 0) (map work ts)) = Some x ->
  Z.of_nat (length (idle (g_pool x)) + holders (g_threads x)) <= Z.of_nat (length (idle p)) + Z.of_nat (length (filter starting ts)) * n.
Proof.
  intros Hn H Nr E. pose proof (more_by_starts_held K _ _ p w ts is x (pool_sized _ _ _ _ _ _ _ Hn H) Nr E) as L. rewrite both_shares in L by exact Hn. nia.
Qed.
Theorem crew_size n auth tls w0 l p w ts is x : 2 <= n -> pool_history K n auth tls w0 l p w -> no_restart false (map fst l) -> ~ In TStart ts ->
  gschedule K is (mkG p w (mkRW false 0) (map work ts)) = Some x -> Z.of_nat (length (idle (g_pool x)) + length (p_borrowed (g_pool x))) <= n.
Proof.
  intros Hn H Hr N E. pose proof (pool_places _ _ _ _ _ _ _ Hn H Hr). pose proof (never_more K p w ts is x N E). lia.
Qed.
End Size.
