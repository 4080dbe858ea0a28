(** Theorem C142: how many connections of each kind a routing pool has while goroutines use it at the same time. *)
From Coq Require Import String ZArith List Bool.
From Verif Require Import Bytes GoVal GoErr Messages Pool SpecPool PoolRace SpecCrew SpecLeave SpecKinds KindSize DemoPool DemoPoolFacts PoolCases StartCases KindCases.
Import ListNotations.
Open Scope Z_scope.

(** ** C142: true if the pool is not started again and nobody starts it at the same time *)
(** Half of the connections are for writing, rounded up, the others for reading. *)
Theorem C142_shares_partial W (K : cluster W) n auth tls w0 l p w ts is x : 2 <= n -> pool_history K n auth tls w0 l p w -> no_restart false (map fst l) -> ~ In TStart ts ->
  gschedule K is (mkG p w (mkRW false 0) (map work ts)) = Some x ->
  sorted_out (g_pool x)
  /\ Z.of_nat (length (p_wq (g_pool x)) + lent_for_writing (g_pool x)) <= (n + 1) / 2
  /\ Z.of_nat (length (p_rq (g_pool x)) + lent_for_reading (g_pool x)) <= n / 2.
Proof. exact (kinds_once K n auth tls w0 l p w ts is x). Qed.
Print Assumptions C142_shares_partial.
(** Otherwise each Start adds no more than a share; idle connections are where they belong in any case. *)
Theorem C142_starts_partial W (K : cluster W) n auth tls w0 l p w ts is x : 2 <= n -> pool_history K n auth tls w0 l p w -> gschedule K is (mkG p w (mkRW false 0) (map work ts)) = Some x ->
  sorted_out (g_pool x)
  /\ Z.of_nat (length (p_wq (g_pool x)) + lent_for_writing (g_pool x)) <= Z.of_nat (length (filter begins (map fst l)) + length (filter starting ts)) * ((n + 1) / 2)
  /\ Z.of_nat (length (p_rq (g_pool x)) + lent_for_reading (g_pool x)) <= Z.of_nat (length (filter begins (map fst l)) + length (filter starting ts)) * (n / 2).
Proof. exact (kinds_starts K n auth tls w0 l p w ts is x). Qed.
Print Assumptions C142_starts_partial.
(** Five connections: three for writing, of which one is lent, and two for reading, of which one is lent, after a round. *)
Example C142_case : let r := demo_run (calm 1000) 5 [OStart] in
  let ts := [TClient 9 [WriteMode]; TRound 1; TClient 9 [ReadMode]; TStop 5 5] in
  pool_history (watch (calm 1000)) 5 (str "neo4j:secret") [] (d_start, []) (the_log r) (the_pool r) (the_world r, the_trace r)
  /\ no_restart false (map fst (the_log r)) /\ ~ In TStart ts
  /\ option_map (fun z => (length (p_wq (g_pool z)), lent_for_writing (g_pool z), length (p_rq (g_pool z)), lent_for_reading (g_pool z)))
       (gschedule (watch (calm 1000)) (repeat 0 7 ++ repeat 1 31 ++ repeat 2 7)%nat (mkG (the_pool r) (the_world r, the_trace r) (mkRW false 0) (map work ts))) = Some (2, 1, 1, 1)%nat.
Proof. split; [apply demo_start; reflexivity|]. vm_compute. intuition discriminate. Qed.
(** Two goroutines start a pool of four at once: it has four for writing and four for reading. *)
Theorem C142_refuted : exists K l p w x, fresh K d_opened d_named
  /\ pool_history (watch K) 4 (str "neo4j:secret") [] (d_start, []) l p w /\ l = []
  /\ gschedule (watch K) both_look (mkG p w (mkRW false 0) (map work [TStart; TStart])) = Some x
  /\ length (p_wq (g_pool x)) = 4%nat /\ length (p_rq (g_pool x)) = 4%nat.
Proof. exact twice_each. Qed.
Print Assumptions C142_refuted.
