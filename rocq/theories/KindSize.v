(** The shares of a routing pool bound its connections of either kind (C142). *)
From Coq Require Import String ZArith List Bool Lia ZifyBool.
From Verif Require Import Bytes GoVal GoErr Decoder Messages GoStr Routing Pool SpecPool BytesFacts RoutingFacts PoolFacts LendFacts SteadyFacts SizeFacts Refresher RefresherFacts PoolRace RaceFacts SpecCrew SpecLeave SpecKinds CrewFacts CrewSize LeaveFacts LeaveSize KindFacts.
Import ListNotations.
Open Scope Z_scope.

Section Size.
Context {W : Type}.
Variable K : cluster W.
Section Parts.
Variables A B : Z.
Variable md : bool.
Notation parted := (parted A B md).
Lemma parted_task t N p w p' w' l' t' : solo K (work t) p w (mkRW false 0) = Some (p', w', l', t') -> parted N p -> parted (N + allowance A B md t) p'.
Proof.
  intros E D. destruct (solo_schedule _ _ _ _ _ _ _ _ _ E) as [O [is H]]. apply (guard_start (W := W) A B md N p w [t]) in D.
  apply (guard_run K A B md _ _ _ _ H) in D. apply guard_parted in D. cbn [g_pool map] in D. rewrite list_sum_cons in D. cbn [list_sum fold_right] in D.
  now rewrite Nat.add_0_r in D.
Qed.
Lemma parted_pop o N p w p' w' r : do_pop K o p w = (p', w', r) -> parted N p -> parted (N + (if begins o && negb (p_running p) then Z.to_nat (share A B md) else 0)) p'.
Proof.
  intros E D. destruct o as [| |m|id h|]; cbn [do_pop begins andb] in *; rewrite ?Nat.add_0_r.
  - destruct (start_pool K p w) as [[p1 w1] r1] eqn:Es. injection E as <- <- _. destruct (p_running p) eqn:Er.
    + unfold start_pool, get in Es. rewrite Er in Es. injection Es as <- <- _. cbn [negb]. now rewrite Nat.add_0_r.
    + cbn [negb]. pose proof (solo_start K p w (mkRW false 0)) as S1. rewrite Es in S1. exact (parted_task TStart N p w _ _ _ _ S1 D).
  - destruct (stop_pool K p w) as [[p1 w1] r1] eqn:Es. injection E as <- <- _. pose proof (solo_stop K p w (mkRW false 0)) as S1. rewrite Es in S1.
    pose proof (parted_task (TStop _ _) N p w _ _ _ _ S1 D) as H. cbn [allowance] in H. now rewrite Nat.add_0_r in H.
  - destruct (borrow K _ p w) as [[p1 w1] r1] eqn:Es. injection E as <- <- _. unfold borrow, get in Es.
    match type of Es with internal_borrow _ ?f ?m _ _ = _ => pose proof (solo_borrow K f m p w 0) as S1; rewrite Es in S1; pose proof (parted_task (TBorrow f m) N p w _ _ _ _ S1 D) as H end.
    cbn [allowance] in H. now rewrite Nat.add_0_r in H.
  - destruct (reclaim K id h p w) as [[p1 w1] r1] eqn:Es. injection E as <- <- _. destruct (solo_reclaim K id h p w) as [c S1]. rewrite Es in S1.
    pose proof (parted_task (TReclaim id h) N p w _ _ _ _ S1 D) as H. cbn [allowance] in H. now rewrite Nat.add_0_r in H.
  - destruct (refresh_round K p w) as [[p1 w1] r1] eqn:Es. injection E as <- <- _. pose proof (solo_round K p w) as S1. rewrite Es in S1.
    pose proof (parted_task (TRound 1) N p w _ _ _ _ S1 D) as H. cbn [allowance] in H. now rewrite Nat.add_0_r in H.
Qed.
Lemma parted_more N M p : (N <= M)%nat -> parted N p -> parted M p.
Proof. intros L (H & Z1 & So). split; [lia|]. split; assumption. Qed.
Lemma parted_run os : forall N p w p' w' l, run_pool K os p w = (p', w', l) -> parted N p -> parted (N + length (filter begins os) * Z.to_nat (share A B md)) p'.
Proof.
  induction os as [|o os IH]; intros N p w p' w' l; cbn [run_pool]; [intros [= <- _ _]; cbn; now rewrite Nat.add_0_r|].
  destruct (do_pop K o p w) as [[p1 w1] r] eqn:E1. destruct (run_pool K os p1 w1) as [[p2 w2] l'] eqn:E2. intros [= <- _ _] D.
  eapply IH in E2; [|eapply parted_pop; eauto]. eapply parted_more; [|exact E2]. cbn [filter]. destruct (begins o); cbn [andb length]; [destruct (negb (p_running p))|]; lia.
Qed.
Lemma parted_once os : forall stopped p w p' w' l, run_pool K os p w = (p', w', l) -> p_lookup p = [] -> p_marked p = [] -> no_restart stopped os ->
  (parted 0 p /\ p_running p = false \/ parted (Z.to_nat (share A B md)) p /\ (p_running p = true \/ stopped = true)) -> parted (Z.to_nat (share A B md)) p'.
Proof.
  induction os as [|o os IH]; intros stopped p w p' w' l; cbn [run_pool].
  - intros [= <- _ _] _ _ _ [[D _]|[D _]]; [eapply parted_more; [|exact D]; lia|exact D].
  - destruct (do_pop K o p w) as [[p1 w1] r] eqn:E1. destruct (run_pool K os p1 w1) as [[p2 w2] l'] eqn:E2. intros [= <- _ _] Hl Hm Hr D.
    cbn [no_restart] in Hr. destruct Hr as [Ho Hr]. pose proof (steady_step K _ _ _ _ _ _ E1 Hl Hm) as St. unfold SteadyFacts.steady in St.
    pose proof (running_step K _ _ _ _ _ _ Hl Hm E1) as R. eapply IH; [exact E2|congruence|congruence|exact Hr|].
    destruct D as [[D Rp]|[D Rp]]; pose proof (parted_pop o _ _ _ _ _ _ E1 D) as D'.
    + destruct o; cbn [begins andb] in D'; rewrite ?Nat.add_0_r in D'; [|left; split; [exact D'|congruence]..]. right. rewrite Rp in D'. cbn [negb] in D'. auto.
    + right. assert (X : begins o && negb (p_running p) = false).
      { destruct o; try reflexivity. cbn [begins andb]. destruct Rp as [-> | Rp]; [reflexivity|]. rewrite Ho in Rp by reflexivity. discriminate. }
      rewrite X, Nat.add_0_r in D'. split; [exact D'|]. destruct o; cbn [after]; rewrite R; auto.
Qed.
End Parts.

Notation parts n := (parted ((n + 1) / 2) (n / 2)).
Lemma parted_new md leader n auth tls q0 : 2 <= n -> new_routing_pool leader n auth tls = Ok q0 -> forall w0 : W, parts n md 0 q0 /\ p_running q0 = false /\ p_lookup q0 = [] /\ p_marked q0 = [].
Proof.
  intros Hn En w0. assert (Hz : sized ((n + 1) / 2) (n / 2) q0) by (apply (pool_sized K n auth tls w0 [] q0 w0 Hn); exists leader, q0; split; [exact En|reflexivity]).
  unfold new_routing_pool in En. destruct (bytes_eqb leader []); [discriminate|]. destruct (_ || _); [discriminate|]. injection En as <-. split; [|auto].
  split; [destruct md; cbn; lia|]. split; [exact Hz|]. split; intros c [].
Qed.
Lemma shares_pos n : 2 <= n -> 0 <= (n + 1) / 2 /\ 0 <= n / 2.
Proof. intros Hn. split; apply Z.div_pos; lia. Qed.
Lemma away_writing p : away true p = lent_for_writing p.
Proof. unfold away, lent_for_writing. f_equal. apply filter_ext. intros [k c]. cbn. unfold mine. now destruct (writing c). Qed.
Lemma away_reading p : away false p = lent_for_reading p.
Proof. reflexivity. Qed.
Theorem kinds_starts n auth tls w0 l p w ts is x : 2 <= n -> pool_history K n auth tls w0 l p w -> gschedule K is (mkG p w (mkRW false 0) (map work ts)) = Some x ->
  sorted_out (g_pool x)
  /\ Z.of_nat (length (p_wq (g_pool x)) + lent_for_writing (g_pool x)) <= Z.of_nat (length (filter begins (map fst l)) + length (filter starting ts)) * ((n + 1) / 2)
  /\ Z.of_nat (length (p_rq (g_pool x)) + lent_for_reading (g_pool x)) <= Z.of_nat (length (filter begins (map fst l)) + length (filter starting ts)) * (n / 2).
Proof.
  intros Hn (leader & q0 & En & Er) E. destruct (shares_pos n Hn) as [P1 P2].
  assert (X : forall md, parts n md (0 + length (filter begins (map fst l)) * Z.to_nat (share ((n + 1) / 2) (n / 2) md) + length (filter starting ts) * Z.to_nat (share ((n + 1) / 2) (n / 2) md)) (g_pool x)).
  { intros md. destruct (parted_new md leader n auth tls q0 Hn En w0) as (D & _). apply (parted_run _ _ md _ _ _ _ _ _ _ Er) in D. apply (guard_start (W := W) _ _ md _ p w ts) in D.
    apply (guard_run K _ _ md _ _ _ _ E) in D. apply guard_parted in D. now rewrite allowed in D. }
  destruct (X true) as (L1 & _ & So). destruct (X false) as (L2 & _ & _). split; [exact So|]. rewrite away_writing in L1. rewrite away_reading in L2. unfold own, share in *. cbn [Nat.add] in *. nia.
Qed.
Theorem kinds_once n auth tls w0 l p w ts is x : 2 <= n -> pool_history K n auth tls w0 l p w -> no_restart false (map fst l) -> ~ In TStart ts ->
  gschedule K is (mkG p w (mkRW false 0) (map work ts)) = Some x ->
  sorted_out (g_pool x)
  /\ Z.of_nat (length (p_wq (g_pool x)) + lent_for_writing (g_pool x)) <= (n + 1) / 2
  /\ Z.of_nat (length (p_rq (g_pool x)) + lent_for_reading (g_pool x)) <= n / 2.
Proof.
  intros Hn (leader & q0 & En & Er) Hr Ns E. destruct (shares_pos n Hn) as [P1 P2].
  assert (X : forall md, parts n md (Z.to_nat (share ((n + 1) / 2) (n / 2) md)) (g_pool x)).
  { intros md. destruct (parted_new md leader n auth tls q0 Hn En w0) as (D & R & L & M). pose proof (parted_once _ _ md _ false _ _ _ _ _ Er L M Hr (or_introl (conj D R))) as D1.
    apply (guard_start (W := W) _ _ md _ p w ts) in D1. apply (guard_run K _ _ md _ _ _ _ E) in D1. apply guard_parted in D1. rewrite allowed in D1.
    assert (Z0 : filter starting ts = []).
    { clear - Ns. induction ts as [|t ts IH]; [reflexivity|]. cbn. destruct (starting t) eqn:Es; [destruct t; try discriminate; elim Ns; now left|]. apply IH. intros X. apply Ns. now right. }
    rewrite Z0, Nat.add_0_r in D1. exact D1. }
  destruct (X true) as (L1 & _ & So). destruct (X false) as (L2 & _ & _). split; [exact So|]. rewrite away_writing in L1. rewrite away_reading in L2. unfold own, share in *. lia.
Qed.
End Size.
