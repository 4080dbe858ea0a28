(** Theorem C141: how many connections a routing pool leaves open while goroutines use it at the same time. *)
From Coq Require Import String ZArith List Bool.
From Verif Require Import Bytes GoVal GoErr Messages Pool SpecPool SpecBooks SpecThrong PoolRace SpecCrew SpecLeave LeaveSize DemoPool DemoPoolFacts PoolCases StartCases LeaveCases.
Import ListNotations.
Open Scope Z_scope.

(** ** C141: true if the pool is not started again and nobody starts it at the same time *)
(** What was asked of the pool before, in any order, also by those who hold nothing; then goroutines that borrow, use, give back, stop
    and refresh, in any order of their steps. While they run one more may be open, the one that asks for the overview or replaces another. *)
Theorem C141_size_partial W (K : cluster W) use leader n auth tls q0 w0 os q w tr ts is x L :
  2 <= n -> new_routing_pool leader n auth tls = Ok q0 -> thronged K use q0 w0 os q w tr -> no_restart false os -> ~ In TStart ts ->
  gschedule (watch K) is (mkG q (w, tr) (mkRW false 0) (map work ts)) = Some x -> NoDup L -> (forall h, In h L -> left_open (snd (g_world x)) h) ->
  Z.of_nat (length L) <= n + 1 /\ (Forall over (g_threads x) -> Z.of_nat (length L) <= n).
Proof. exact (leaves_once K use leader n auth tls q0 w0 os q w tr ts is x L). Qed.
Print Assumptions C141_size_partial.
(** Each Start leaves no more open than the size of the pool. *)
Theorem C141_starts_partial W (K : cluster W) use leader n auth tls q0 w0 os q w tr ts is x L :
  2 <= n -> new_routing_pool leader n auth tls = Ok q0 -> thronged K use q0 w0 os q w tr ->
  gschedule (watch K) is (mkG q (w, tr) (mkRW false 0) (map work ts)) = Some x -> NoDup L -> (forall h, In h L -> left_open (snd (g_world x)) h) ->
  Z.of_nat (length L) <= Z.of_nat (length (filter begins os) + length (filter starting ts)) * n + 1 + Z.of_nat (length (filter starting ts))
  /\ (Forall over (g_threads x) -> Z.of_nat (length L) <= Z.of_nat (length (filter begins os) + length (filter starting ts)) * n).
Proof. exact (leaves_starts K use leader n auth tls q0 w0 os q w tr ts is x L). Qed.
Print Assumptions C141_starts_partial.
(** A round asks for the overview while two clients use a connection each: five connections of a pool of four are open. *)
Example C141_case : new_routing_pool leader_string 4 (str "neo4j:secret") [] = Ok (demo_pool 4)
  /\ thronged (calm 1000) (fun _ _ _ => True) (demo_pool 4) d_start [OStart] (leave_pool 4 [OStart]) (leave_world 4 [OStart]) (leave_trace 4 [OStart])
  /\ no_restart false [OStart] /\ ~ In TStart [TClient 9 [WriteMode]; TRound 1; TClient 9 [ReadMode]; TStop 5 5]
  /\ (forall tr h, In h (remaining tr) -> left_open tr h)
  /\ option_map (fun x => remaining (snd (g_world x))) (leave_go 4 [OStart] [TClient 9 [WriteMode]; TRound 1; TClient 9 [ReadMode]; TStop 5 5]
       (repeat 0 7 ++ repeat 2 7 ++ repeat 1 10)%nat) = Some [5; 4; 3; 2; 1]%nat.
Proof. split; [reflexivity|]. split; [apply leave_thronged|]. split; [cbn; intuition discriminate|]. split; [cbn; intuition discriminate|]. split; [exact remaining_open|vm_compute; reflexivity]. Qed.
(** Once the round is over there are four. *)
Example C141_over_case : option_map (fun x => (remaining (snd (g_world x)), map (fun t => match t with GDone _ | GEnd => true | _ => false end) (g_threads x)))
    (leave_go 4 [OStart] [TBorrow 9 WriteMode; TRound 1; TBorrow 9 ReadMode] (repeat 0 7 ++ repeat 1 30 ++ repeat 2 7)%nat) = Some ([4; 3; 2; 1]%nat, [true; true; true]).
Proof. vm_compute. reflexivity. Qed.
(** A pool of four that is started by two goroutines at once leaves eight connections open. *)
Theorem C141_refuted use : exists K q0 q w tr x L, fresh K d_opened d_named /\ new_routing_pool leader_string 4 (str "neo4j:secret") [] = Ok q0
  /\ thronged K use q0 d_start [] q w tr
  /\ gschedule (watch K) both_look (mkG q (w, tr) (mkRW false 0) (map work [TStart; TStart])) = Some x
  /\ Forall over (g_threads x) /\ NoDup L /\ (forall h, In h L -> left_open (snd (g_world x)) h) /\ length L = 8%nat.
Proof. exact (eight_left use). Qed.
Print Assumptions C141_refuted.
