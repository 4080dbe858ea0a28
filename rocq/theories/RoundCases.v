(** A routing pool that is stopped while its refresher works. *)
From Coq Require Import String ZArith List Bool Lia.
From Verif Require Import Bytes GoVal GoErr Decoder Messages GoStr Routing Pool SpecPool PoolRace DemoPool DemoPoolFacts PoolCases.
Import ListNotations.
Open Scope Z_scope.

(** Stop empties the queues after the refresher has looked at the first of them: the refresher puts back what it saw. *)
Definition stop_inside : list nat := repeat 1%nat 17 ++ repeat 0%nat 20 ++ repeat 1%nat 12.
Theorem round_revives : exists K l p w x, fresh K d_opened d_named
  /\ pool_history (watch K) 4 (str "neo4j:secret") [] (d_start, []) l p w /\ l = [(OStart, RDone)]
  /\ gschedule (watch K) stop_inside (mkG p w (mkRW false 0) (map work [TStop 5 5; TRound 1])) = Some x
  /\ g_threads x = [GEnd; GEnd] /\ p_running (g_pool x) = false /\ idle (g_pool x) = [3; 4]%nat.
Proof.
  set (r := demo_run (calm 1000) 4 [OStart]).
  set (x := gschedule (watch (calm 1000)) stop_inside (mkG (the_pool r) (the_world r, the_trace r) (mkRW false 0) (map work [TStop 5 5; TRound 1]))).
  exists (calm 1000), (the_log r), (the_pool r), (the_world r, the_trace r), (match x with Some x => x | None => mkG (the_pool r) (the_world r, the_trace r) (mkRW false 0) [] end).
  split; [apply demo_fresh|]. split; [apply demo_start; reflexivity|]. split; [vm_compute; reflexivity|]. split; [vm_compute; reflexivity|].
  split; [vm_compute; reflexivity|]. split; vm_compute; reflexivity.
Qed.

(** A client borrows what Stop has taken from the queue and the refresher has put back: Stop is about to test the connection in use. *)
Definition borrow_again : list nat := repeat 1%nat 17 ++ repeat 0%nat 4 ++ repeat 1%nat 14 ++ repeat 2%nat 7.
Definition all_three : list task := [TStop 5 5; TRound 1; TClient 5 [ReadMode]].
Theorem stop_touches : exists K l p w x c k, fresh K d_opened d_named
  /\ pool_history (watch K) 4 (str "neo4j:secret") [] (d_start, []) l p w /\ l = [(OStart, RDone)]
  /\ gschedule (watch K) borrow_again (mkG p w (mkRW false 0) (map work all_three)) = Some x
  /\ nth_error (g_threads x) 2 = Some (GUse c k) /\ exists t, nth_error (g_threads x) 0 = Some t /\ touches (pw_conn c) t.
Proof.
  set (r := demo_run (calm 1000) 4 [OStart]).
  set (x := gschedule (watch (calm 1000)) borrow_again (mkG (the_pool r) (the_world r, the_trace r) (mkRW false 0) (map work all_three))).
  assert (E : match x with Some y => match nth_error (g_threads y) 2, nth_error (g_threads y) 0 with Some (GUse c _), Some (GValid h _) => Nat.eqb h (pw_conn c) | _, _ => false end | None => false end = true)
    by (vm_compute; reflexivity).
  destruct x as [y|] eqn:Ex; [|discriminate E]. destruct (nth_error (g_threads y) 2) as [t|] eqn:E2; [|discriminate E]. destruct t; try discriminate E.
  destruct (nth_error (g_threads y) 0) as [u|] eqn:E0; [|discriminate E]. destruct u; try discriminate E. apply Nat.eqb_eq in E.
  exists (calm 1000), (the_log r), (the_pool r), (the_world r, the_trace r), y. do 2 eexists.
  split; [apply demo_fresh|]. split; [apply demo_start; reflexivity|]. split; [vm_compute; reflexivity|]. split; [exact Ex|].
  split; [exact E2|]. eexists. split; [exact E0|]. cbn. exact E.
Qed.
