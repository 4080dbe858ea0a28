(** Connections a routing pool leaves open while goroutines use it: cases. *)
From Coq Require Import String ZArith List Bool Lia.
From Verif Require Import Bytes GoVal GoErr Messages Pool SpecPool SpecBooks SpecThrong PoolRace SpecCrew SpecLeave ThrongCases DemoPool DemoPoolFacts PoolCases StartCases.
Import ListNotations.
Open Scope Z_scope.

(** The connections opened, and those asked to close. *)
Definition dialled (tr : list kevent) : list nat := flat_map (fun e => match e with KDial _ (Ok h) => [h] | _ => [] end) tr.
Definition dismissed (tr : list kevent) : list nat := flat_map (fun e => match e with KClose h _ => [h] | _ => [] end) tr.
Definition remaining (tr : list kevent) : list nat := filter (fun h => negb (existsb (Nat.eqb h) (dismissed tr))) (dialled tr).
Lemma remaining_open tr h : In h (remaining tr) -> left_open tr h.
Proof.
  unfold remaining. rewrite filter_In. intros [H N]. split.
  - apply in_flat_map in H. destruct H as [[s [d| | |]| | |] [I X]]; cbn in X; try tauto. destruct X as [<-|[]]. eauto.
  - intros [e I]. apply negb_true_iff in N. rewrite <- not_true_iff_false in N. apply N. apply existsb_exists. exists h. split; [|apply Nat.eqb_refl].
    apply in_flat_map. exists (KClose h e). split; [exact I|now left].
Qed.
Definition leave_run n os := run_pool (watch (calm 1000)) os (demo_pool n) (d_start, []).
Definition leave_pool n os := fst (fst (leave_run n os)).
Definition leave_world n os := fst (snd (fst (leave_run n os))).
Definition leave_trace n os := snd (snd (fst (leave_run n os))).
Lemma leave_thronged use n os : thronged (calm 1000) use (demo_pool n) d_start os (leave_pool n os) (leave_world n os) (leave_trace n os).
Proof. exact (runs_thronged (calm 1000) use (demo_pool n) d_start os). Qed.
Definition leave_go n os ts is := gschedule (watch (calm 1000)) is (mkG (leave_pool n os) (leave_world n os, leave_trace n os) (mkRW false 0) (map work ts)).
(** A pool of four is started by two goroutines at once: both end, and eight connections are left open. *)
Theorem eight_left use : exists K q0 q w tr x L, fresh K d_opened d_named /\ new_routing_pool leader_string 4 (str "neo4j:secret") [] = Ok q0
  /\ thronged K use q0 d_start [] q w tr
  /\ gschedule (watch K) both_look (mkG q (w, tr) (mkRW false 0) (map work [TStart; TStart])) = Some x
  /\ Forall over (g_threads x) /\ NoDup L /\ (forall h, In h L -> left_open (snd (g_world x)) h) /\ length L = 8%nat.
Proof.
  exists (calm 1000), (demo_pool 4), (leave_pool 4 []), (leave_world 4 []), (leave_trace 4 []).
  set (z := leave_go 4 [] [TStart; TStart] both_look).
  exists (match z with Some x => x | None => mkG (demo_pool 4) (d_start, []) (mkRW false 0) [] end), [9; 8; 7; 6; 4; 3; 2; 1]%nat.
  split; [apply demo_fresh|]. split; [reflexivity|]. split; [apply leave_thronged|]. split; [vm_compute; reflexivity|]. split; [vm_compute; repeat constructor|].
  split; [repeat constructor; cbn; intuition discriminate|]. split; [|reflexivity].
  intros h Hh. apply remaining_open. assert (E : remaining (snd (g_world (match z with Some x => x | None => mkG (demo_pool 4) (d_start, []) (mkRW false 0) [] end))) = [9; 8; 7; 6; 4; 3; 2; 1]%nat) by (vm_compute; reflexivity).
  rewrite E. exact Hh.
Qed.
