(** A routing pool that is stopped while it is in use. *)
From Coq Require Import String ZArith List Bool Lia.
From Verif Require Import Bytes GoVal GoErr Decoder Messages GoStr Routing Pool SpecPool PoolRace DemoPool DemoPoolFacts PoolCases.
Import ListNotations.
Open Scope Z_scope.

(** A borrower takes the last reader after Stop has counted it. *)
Definition stop_late : list nat := repeat 0%nat 7 ++ repeat 1%nat 7 ++ [0%nat].
Theorem stop_fails : exists K l p w x c e, fresh K d_opened d_named
  /\ pool_history (watch K) 4 (str "neo4j:secret") [] (d_start, []) l p w /\ l = [(OStart, RDone)]
  /\ gschedule (watch K) stop_late (mkG p w (mkRW false 0) (map work [TStop 5 5; TBorrow 3 ReadMode])) = Some x
  /\ g_threads x = [GDone (Err e); GDone (Ok c)] /\ idle (g_pool x) = [1; 2]%nat
  /\ (forall h e', ~ In (KClose h e') (firstn (length (snd (g_world x)) - length (snd w)) (snd (g_world x))))
  /\ exists e', do_pop (watch K) OStop (g_pool x) (g_world x) = (g_pool x, g_world x, RFail e').
Proof.
  set (r := demo_run (calm 1000) 4 [OStart]).
  set (x := gschedule (watch (calm 1000)) stop_late (mkG (the_pool r) (the_world r, the_trace r) (mkRW false 0) (map work [TStop 5 5; TBorrow 3 ReadMode]))).
  exists (calm 1000), (the_log r), (the_pool r), (the_world r, the_trace r), (match x with Some x => x | None => mkG (the_pool r) (the_world r, the_trace r) (mkRW false 0) [] end).
  do 2 eexists. split; [apply demo_fresh|]. split; [apply demo_start; reflexivity|]. split; [vm_compute; reflexivity|]. split; [vm_compute; reflexivity|].
  split; [vm_compute; reflexivity|]. split; [vm_compute; reflexivity|]. split; [vm_compute; intuition discriminate|]. eexists. vm_compute. reflexivity.
Qed.

(** A connection is put back after Stop has emptied the queues: Reclaim looked before whether the pool runs. *)
Definition return_late : list nat := repeat 0%nat 2 ++ repeat 1%nat 16 ++ repeat 0%nat 6.
Definition returner : list task := [TReclaim (str "0-aaaaaaaa") 3; TStop 5 5].
Theorem stop_leaves : exists K l p w x c, fresh K d_opened d_named
  /\ pool_history (watch K) 4 (str "neo4j:secret") [] (d_start, []) l p w /\ l = [(OStart, RDone); (OBorrow ReadMode, RLent (str "0-aaaaaaaa") 3)]
  /\ gschedule (watch K) return_late (mkG p w (mkRW false 0) (map work returner)) = Some x
  /\ g_threads x = [GDone (Ok c); GEnd] /\ p_running (g_pool x) = false /\ idle (g_pool x) = [3]%nat.
Proof.
  set (r := demo_run (calm 1000) 4 [OStart; OBorrow ReadMode]).
  set (x := gschedule (watch (calm 1000)) return_late (mkG (the_pool r) (the_world r, the_trace r) (mkRW false 0) (map work returner))).
  exists (calm 1000), (the_log r), (the_pool r), (the_world r, the_trace r), (match x with Some x => x | None => mkG (the_pool r) (the_world r, the_trace r) (mkRW false 0) [] end).
  eexists. split; [apply demo_fresh|]. split; [apply demo_start; reflexivity|]. split; [vm_compute; reflexivity|]. split; [vm_compute; reflexivity|].
  split; [vm_compute; reflexivity|]. split; vm_compute; reflexivity.
Qed.

(** Stop and Reclaim write the same map: Stop does not take the mutex. *)
Definition both_remove : list nat := repeat 0%nat 4 ++ repeat 1%nat 5.
Theorem stop_clashes : exists K l p w x, fresh K d_opened d_named
  /\ pool_history (watch K) 4 (str "neo4j:secret") [] (d_start, []) l p w /\ l = [(OStart, RDone); (OBorrow ReadMode, RLent (str "0-aaaaaaaa") 3)]
  /\ gschedule (watch K) both_remove (mkG p w (mkRW false 0) (map work returner)) = Some x
  /\ clash (g_threads x) 0 1.
Proof.
  set (r := demo_run (calm 1000) 4 [OStart; OBorrow ReadMode]).
  set (x := gschedule (watch (calm 1000)) both_remove (mkG (the_pool r) (the_world r, the_trace r) (mkRW false 0) (map work returner))).
  exists (calm 1000), (the_log r), (the_pool r), (the_world r, the_trace r), (match x with Some x => x | None => mkG (the_pool r) (the_world r, the_trace r) (mkRW false 0) [] end).
  split; [apply demo_fresh|]. split; [apply demo_start; reflexivity|]. split; [vm_compute; reflexivity|].
  assert (E : match x with Some _ => true | None => false end = true) by (vm_compute; reflexivity).
  destruct x as [y|] eqn:Ex; [|discriminate]. split; [exact Ex|]. clear E.
  assert (E : option_map (fun y => map uses (g_threads y)) x = Some [Some (FHeld, true); Some (FHeld, true)]) by (vm_compute; reflexivity).
  rewrite Ex in E. injection E as E. revert E. generalize (g_threads y). clear. intros ts E. destruct ts as [|t [|u [|? ?]]]; try discriminate E. injection E as Et Eu.
  split; [discriminate|]. exists t, u, FHeld, true, true. auto.
Qed.
