(** Connections of each kind in a routing pool: a case. *)
From Coq Require Import String ZArith List Bool Lia.
From Verif Require Import Bytes GoVal GoErr Messages Pool SpecPool PoolRace DemoPool DemoPoolFacts PoolCases StartCases.
Import ListNotations.
Open Scope Z_scope.

Theorem twice_each : exists K l p w x, fresh K d_opened d_named
  /\ pool_history (watch K) 4 (str "neo4j:secret") [] (d_start, []) l p w /\ l = []
  /\ gschedule (watch K) both_look (mkG p w (mkRW false 0) (map work [TStart; TStart])) = Some x
  /\ length (p_wq (g_pool x)) = 4%nat /\ length (p_rq (g_pool x)) = 4%nat.
Proof.
  set (r := demo_run (calm 1000) 4 []).
  set (x := gschedule (watch (calm 1000)) both_look (mkG (the_pool r) (the_world r, the_trace r) (mkRW false 0) (map work [TStart; TStart]))).
  exists (calm 1000), (the_log r), (the_pool r), (the_world r, the_trace r), (match x with Some x => x | None => mkG (the_pool r) (the_world r, the_trace r) (mkRW false 0) [] end).
  split; [apply demo_fresh|]. split; [apply demo_start; reflexivity|]. split; [vm_compute; reflexivity|]. split; [vm_compute; reflexivity|].
  split; vm_compute; reflexivity.
Qed.
