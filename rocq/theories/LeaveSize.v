(** How many connections a routing pool leaves open, by the number of times it is started (C141). *)
From Coq Require Import String ZArith List Bool Lia ZifyBool.
From Verif Require Import Bytes GoVal GoErr Decoder Messages GoStr Routing Pool SpecPool SpecBooks SpecThrong BytesFacts RoutingFacts PoolFacts LendFacts SteadyFacts SizeFacts Refresher RefresherFacts PoolRace RaceFacts SpecCrew SpecLeave CrewFacts CrewSize LeaveFacts.
Import ListNotations.
Open Scope Z_scope.

Section Size.
Context {W : Type}.
Variable K : cluster W.
Section Docks.
Variables A B : Z.
Notation docked := (docked A B).
Lemma docked_task t N p w p' w' l' t' : solo (watch K) (work t) p w (mkRW false 0) = Some (p', w', l', t') -> docked N p (snd w) -> docked (N + credit A B t) p' (snd w').
Proof.
  intros E D. destruct (solo_schedule _ _ _ _ _ _ _ _ _ E) as [O [is H]]. apply (harbour_start A B N p w [t]) in D.
  apply (harbour_run K A B _ _ _ _ _ H) in D. apply harbour_end in D; [|constructor; [exact O|constructor]]. cbn [g_pool g_world map] in D. rewrite list_sum_cons in D. cbn [list_sum fold_right] in D.
  now rewrite Nat.add_0_r in D.
Qed.
Lemma docked_pop o N p w p' w' r : do_pop (watch K) o p w = (p', w', r) -> docked N p (snd w) -> docked (N + (if begins o && negb (p_running p) then Z.to_nat A + Z.to_nat B else 0)) p' (snd w').
Proof.
  intros E D. destruct o as [| |m|id h|]; cbn [do_pop begins andb] in *; rewrite ?Nat.add_0_r.
  - destruct (start_pool (watch K) p w) as [[p1 w1] r1] eqn:Es. injection E as <- <- _. destruct (p_running p) eqn:Er.
    + unfold start_pool, get in Es. rewrite Er in Es. injection Es as <- <- _. cbn [negb]. now rewrite Nat.add_0_r.
    + cbn [negb]. pose proof (solo_start (watch K) p w (mkRW false 0)) as S1. rewrite Es in S1. exact (docked_task TStart N p w _ _ _ _ S1 D).
  - destruct (stop_pool (watch K) p w) as [[p1 w1] r1] eqn:Es. injection E as <- <- _. pose proof (solo_stop (watch K) p w (mkRW false 0)) as S1. rewrite Es in S1.
    pose proof (docked_task (TStop _ _) N p w _ _ _ _ S1 D) as H. cbn [credit] in H. now rewrite Nat.add_0_r in H.
  - destruct (borrow (watch K) _ p w) as [[p1 w1] r1] eqn:Es. injection E as <- <- _. unfold borrow, get in Es.
    match type of Es with internal_borrow _ ?f ?m _ _ = _ => pose proof (solo_borrow (watch K) f m p w 0) as S1; rewrite Es in S1; pose proof (docked_task (TBorrow f m) N p w _ _ _ _ S1 D) as H end.
    cbn [credit] in H. now rewrite Nat.add_0_r in H.
  - destruct (reclaim (watch K) id h p w) as [[p1 w1] r1] eqn:Es. injection E as <- <- _. destruct (solo_reclaim (watch K) id h p w) as [c S1]. rewrite Es in S1.
    pose proof (docked_task (TReclaim id h) N p w _ _ _ _ S1 D) as H. cbn [credit] in H. now rewrite Nat.add_0_r in H.
  - destruct (refresh_round (watch K) p w) as [[p1 w1] r1] eqn:Es. injection E as <- <- _. pose proof (solo_round (watch K) p w) as S1. rewrite Es in S1.
    pose proof (docked_task (TRound 1) N p w _ _ _ _ S1 D) as H. cbn [credit] in H. now rewrite Nat.add_0_r in H.
Qed.
End Docks.

Variable use : nat -> W -> W -> Prop.
Notation docks n := (docked ((n + 1) / 2) (n / 2)).
Lemma docked_new leader n auth tls q0 : 2 <= n -> new_routing_pool leader n auth tls = Ok q0 -> forall w0 : W, docks n 0 q0 [] /\ p_running q0 = false /\ p_lookup q0 = [] /\ p_marked q0 = [].
Proof.
  intros Hn En w0. assert (Hz : sized ((n + 1) / 2) (n / 2) q0) by (apply (pool_sized K n auth tls w0 [] q0 w0 Hn); exists leader, q0; split; [exact En|reflexivity]).
  unfold new_routing_pool in En. destruct (bytes_eqb leader []); [discriminate|]. destruct (_ || _); [discriminate|]. injection En as <-. split; [|auto].
  split; [exact Hz|]. exists []. split; [intros h [s []]|cbn; lia].
Qed.
(** Every Start may open as many connections as the pool has places. *)
Lemma docked_thronged leader n auth tls q0 w0 os q w tr : 2 <= n -> new_routing_pool leader n auth tls = Ok q0 -> thronged K use q0 w0 os q w tr ->
  docks n (length (filter begins os) * Z.to_nat n) q tr.
Proof.
  intros Hn En H. induction H as [|os p w tr o p' w' tr' r H IH E|os p w tr h w' H IH U]; [apply (docked_new leader n auth tls q0 Hn En w0)| |exact IH].
  pose proof (docked_pop _ _ o _ p (w, tr) p' (w', tr') r E IH) as D. rewrite both_shares in D by exact Hn. eapply docked_more; [|exact D].
  rewrite filter_app, app_length. cbn [filter]. destruct (begins o); cbn [andb length]; [destruct (negb (p_running p))|]; lia.
Qed.
Lemma no_restart_end os : forall b o, no_restart b (os ++ [o]) -> no_restart b os /\ (o = OStart -> fold_left after os b = false).
Proof. induction os as [|a os IH]; intros b o; cbn; [tauto|]. intros [H1 H2]. destruct (IH _ _ H2). tauto. Qed.
(** A pool that is not started again. *)
Lemma docked_once leader n auth tls q0 w0 os q w tr : 2 <= n -> new_routing_pool leader n auth tls = Ok q0 -> thronged K use q0 w0 os q w tr -> no_restart false os ->
  docks n (Z.to_nat n) q tr.
Proof.
  intros Hn En H Hr.
  assert (X : p_lookup q = [] /\ p_marked q = [] /\ (docks n 0 q tr /\ p_running q = false \/ docks n (Z.to_nat n) q tr /\ (p_running q = true \/ fold_left after os false = true))).
  { induction H as [|os p w tr o p' w' tr' r H IH E|os p w tr h w' H IH U]; [|..|exact (IH Hr)].
    - destruct (docked_new leader n auth tls q0 Hn En w0) as (D & R & L & M). auto.
    - apply no_restart_end in Hr. destruct Hr as [Hr Ho]. destruct (IH Hr) as (Hl & Hm & D). pose proof (steady_step (watch K) _ _ _ _ _ _ E Hl Hm) as St. unfold SteadyFacts.steady in St.
      pose proof (running_step (watch K) _ _ _ _ _ _ Hl Hm E) as R. rewrite fold_left_app. cbn [fold_left]. split; [congruence|]. split; [congruence|]. 
      destruct D as [[D Rp]|[D Rp]]; pose proof (docked_pop _ _ o _ p (w, tr) p' (w', tr') r E D) as D'; rewrite both_shares in D' by exact Hn; cbn [snd] in D'.
      + destruct o; cbn [begins andb] in D'; cbn [after]; rewrite ?Nat.add_0_r in D'; [|left; split; [exact D'|congruence]..]. right. rewrite Rp in D'. cbn [negb] in D'. auto.
      + right. assert (X : begins o && negb (p_running p) = false).
        { destruct o; try reflexivity. cbn [begins andb]. destruct Rp as [-> | Rp]; [reflexivity|]. rewrite (Ho eq_refl) in Rp. discriminate. }
        rewrite X, Nat.add_0_r in D'. split; [exact D'|]. destruct o; cbn [after]; rewrite R; auto. }
  destruct X as (_ & _ & [[D _]|[D _]]); [|exact D]. eapply docked_more; [|exact D]. lia.
Qed.

Theorem leaves_starts leader n auth tls q0 w0 os q w tr ts is x L : 2 <= n -> new_routing_pool leader n auth tls = Ok q0 -> thronged K use q0 w0 os q w tr ->
  gschedule (watch K) is (mkG q (w, tr) (mkRW false 0) (map work ts)) = Some x -> NoDup L -> (forall h, In h L -> left_open (snd (g_world x)) h) ->
  Z.of_nat (length L) <= Z.of_nat (length (filter begins os) + length (filter starting ts)) * n + 1 + Z.of_nat (length (filter starting ts))
  /\ (Forall over (g_threads x) -> Z.of_nat (length L) <= Z.of_nat (length (filter begins os) + length (filter starting ts)) * n).
Proof.
  intros Hn En H E Nd HL. pose proof (docked_thronged _ _ _ _ _ _ _ _ _ _ Hn En H) as D. apply (harbour_start _ _ _ q (w, tr) ts) in D. apply (harbour_run K _ _ _ _ _ _ _ E) in D.
  rewrite all_credit, both_shares in D by exact Hn.
  assert (C : length (filter (fun b => b) (map starting ts)) = length (filter starting ts)) by (clear; induction ts as [|t ts IH]; [reflexivity|]; cbn; destruct (starting t); cbn; auto).
  split.
  - pose proof (harbour_open _ _ _ _ _ L D Nd HL) as X. rewrite C in X. nia.
  - intros O. apply harbour_end in D; [|exact O]. pose proof (docked_open _ _ _ _ _ L D Nd HL) as X. nia.
Qed.
Theorem leaves_once leader n auth tls q0 w0 os q w tr ts is x L : 2 <= n -> new_routing_pool leader n auth tls = Ok q0 -> thronged K use q0 w0 os q w tr -> no_restart false os -> ~ In TStart ts ->
  gschedule (watch K) is (mkG q (w, tr) (mkRW false 0) (map work ts)) = Some x -> NoDup L -> (forall h, In h L -> left_open (snd (g_world x)) h) ->
  Z.of_nat (length L) <= n + 1 /\ (Forall over (g_threads x) -> Z.of_nat (length L) <= n).
Proof.
  intros Hn En H Hr Ns E Nd HL. pose proof (docked_once _ _ _ _ _ _ _ _ _ _ Hn En H Hr) as D. apply (harbour_start _ _ _ q (w, tr) ts) in D. apply (harbour_run K _ _ _ _ _ _ _ E) in D.
  rewrite all_credit, both_shares in D by exact Hn.
  assert (Z0 : filter starting ts = []).
  { clear - Ns. induction ts as [|t ts IH]; [reflexivity|]. cbn. destruct (starting t) eqn:Es; [destruct t; try discriminate; elim Ns; now left|]. apply IH. intros X. apply Ns. now right. }
  assert (C : length (filter (fun b => b) (map starting ts)) = length (filter starting ts)) by (clear; induction ts as [|t ts IH]; [reflexivity|]; cbn; destruct (starting t); cbn; auto).
  split.
  - pose proof (harbour_open _ _ _ _ _ L D Nd HL) as X. rewrite C, Z0 in X. cbn [length] in X. lia.
  - intros O. apply harbour_end in D; [|exact O]. pose proof (docked_open _ _ _ _ _ L D Nd HL) as X. rewrite Z0 in X. cbn [length] in X. lia.
Qed.
Theorem leaves_alone leader n auth tls q0 w0 os q w tr L : 2 <= n -> new_routing_pool leader n auth tls = Ok q0 -> thronged K use q0 w0 os q w tr -> no_restart false os ->
  NoDup L -> (forall h, In h L -> left_open tr h) -> Z.of_nat (length L) <= n.
Proof. intros Hn En H Hr Nd HL. pose proof (docked_once _ _ _ _ _ _ _ _ _ _ Hn En H Hr) as D. pose proof (docked_open _ _ _ _ _ L D Nd HL). lia. Qed.
Theorem leaves_alone_starts leader n auth tls q0 w0 os q w tr L : 2 <= n -> new_routing_pool leader n auth tls = Ok q0 -> thronged K use q0 w0 os q w tr ->
  NoDup L -> (forall h, In h L -> left_open tr h) -> Z.of_nat (length L) <= Z.of_nat (length (filter begins os)) * n.
Proof. intros Hn En H Nd HL. pose proof (docked_thronged _ _ _ _ _ _ _ _ _ _ Hn En H) as D. pose proof (docked_open _ _ _ _ _ L D Nd HL). nia. Qed.
End Size.
