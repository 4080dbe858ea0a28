(** Theorem C140: how many connections a routing pool has while goroutines use it at the same time. *)
From Coq Require Import String ZArith List Bool.
From Verif Require Import Bytes GoVal GoErr Messages Pool SpecPool PoolRace SpecCrew CrewFacts CrewSize DemoPool DemoPoolFacts PoolCases StartCases.
Import ListNotations.
Open Scope Z_scope.

(** ** C140: true if nobody starts the pool at the same time *)
(** Goroutines that borrow, use, give back, stop and refresh, in any order of their steps. *)
Theorem C140_size_partial W (K : cluster W) n auth tls w0 l p w ts is x : 2 <= n -> pool_history K n auth tls w0 l p w -> no_restart false (map fst l) -> ~ In TStart ts ->
  gschedule K is (mkG p w (mkRW false 0) (map work ts)) = Some x -> Z.of_nat (length (idle (g_pool x)) + length (p_borrowed (g_pool x))) <= n.
Proof. exact (crew_size K n auth tls w0 l p w ts is x). Qed.
Print Assumptions C140_size_partial.
(** Whatever the pool: its connections do not become more. *)
Theorem C140_never_more_partial W (K : cluster W) p w ts is x : ~ In TStart ts -> gschedule K is (mkG p w (mkRW false 0) (map work ts)) = Some x ->
  (length (idle (g_pool x)) + length (p_borrowed (g_pool x)) <= length (idle p) + length (p_borrowed p))%nat.
Proof. exact (never_more K p w ts is x). Qed.
Print Assumptions C140_never_more_partial.
(** Each Start adds no more than the size of the pool. *)
Theorem C140_starts_partial W (K : cluster W) n auth tls w0 l p w ts is x : 2 <= n -> pool_history K n auth tls w0 l p w ->
  gschedule K is (mkG p w (mkRW false 0) (map work ts)) = Some x ->
  Z.of_nat (length (idle (g_pool x)) + length (p_borrowed (g_pool x))) <= Z.of_nat (length (idle p) + length (p_borrowed p)) + Z.of_nat (length (filter starting ts)) * n.
Proof. exact (crew_starts K n auth tls w0 l p w ts is x). Qed.
Print Assumptions C140_starts_partial.
(** The same of the connections that are idle, in use by a goroutine or in the hands of one that has ended. *)
Theorem C140_held_partial W (K : cluster W) n auth tls w0 l p w ts is x : 2 <= n -> pool_history K n auth tls w0 l p w -> (forall t, In t ts -> ~ returns t) ->
  gschedule K is (mkG p w (mkRW false 0) (map work ts)) = Some x ->
  Z.of_nat (length (idle (g_pool x)) + holders (g_threads x)) <= Z.of_nat (length (idle p)) + Z.of_nat (length (filter starting ts)) * n.
Proof. exact (crew_starts_held K n auth tls w0 l p w ts is x). Qed.
Print Assumptions C140_held_partial.
(** Two clients use a connection each, a round comes between them; two connections are idle. *)
Example C140_case : let r := demo_run (calm 1000) 4 [OStart] in
  let ts := [TClient 9 [WriteMode]; TRound 1; TClient 9 [ReadMode]; TStop 5 5] in
  length (idle (the_pool r)) = 4%nat /\ no_restart false [OStart] /\ ~ In TStart ts
  /\ option_map (fun z => (length (idle (g_pool z)), length (p_borrowed (g_pool z)), holders (g_threads z)))
       (gschedule (watch (calm 1000)) (repeat 0 7 ++ repeat 1 30 ++ repeat 2 7)%nat (mkG (the_pool r) (the_world r, []) (mkRW false 0) (map work ts))) = Some (2, 2, 2)%nat.
Proof. vm_compute. intuition discriminate. Qed.
(** A pool is used while it is started: it has all its connections. *)
Example C140_start_case : let r := demo_run (calm 1000) 4 [] in let ts := [TStart; TClient 9 [WriteMode]] in
  length (idle (the_pool r)) = 0%nat /\ length (filter starting ts) = 1%nat
  /\ option_map (fun z => (length (idle (g_pool z)), length (p_borrowed (g_pool z)), holders (g_threads z)))
       (gschedule (watch (calm 1000)) (repeat 0 62 ++ repeat 1 7)%nat (mkG (the_pool r) (the_world r, []) (mkRW false 0) (map work ts))) = Some (3, 1, 1)%nat.
Proof. vm_compute. auto. Qed.
(** A pool of four that is started by two goroutines at once has eight connections. *)
Theorem C140_refuted : exists K l p w x, fresh K d_opened d_named
  /\ pool_history (watch K) 4 (str "neo4j:secret") [] (d_start, []) l p w /\ l = []
  /\ gschedule (watch K) both_look (mkG p w (mkRW false 0) (map work [TStart; TStart])) = Some x
  /\ g_threads x = [GEnd; GEnd] /\ length (idle (g_pool x)) = 8%nat.
Proof. exact start_twice. Qed.
Print Assumptions C140_refuted.
