(** Theorem C138: how many connections a driver pool has open. *)
From Coq Require Import String ZArith List Bool.
From Verif Require Import Bytes GoVal GoErr SpecSession SpecShare DriverPool SpecDriver DemoDriver SpecCrowd CrowdFacts.
From Verif Require DemoShare CrowdCases CrowdGrows.
Import ListNotations.
Open Scope Z_scope.

(** ** C138: true of connections that were not found dead *)
(** Nobody has to give back what they hold, or only that: whatever is asked of the pool, and whatever is done with connections. *)
Theorem C138_size_partial W (N : net W) use max w0 tr d w L : 0 <= max -> mingled N use max w0 tr d w ->
  NoDup L -> (forall c, In c L -> not_given_up tr c) -> Z.of_nat (length L) <= max.
Proof. exact (not_too_many N max use w0 tr d w L). Qed.
Print Assumptions C138_size_partial.
(** Two connections, given back twice, under a wrong name and by others, and lent again, one of them dead meanwhile and
    replaced: both places are taken. *)
Example C138_case : let x := demo_events 2 mixed_script CrowdCases.crowd_day in
  mingled demo_net (fun _ _ _ => True) 2 (fst (t_start mixed_script)) (snd (snd (fst x))) (fst (fst x)) (fst (snd (fst x)))
  /\ NoDup [1; 2]%nat /\ (forall c, In c [1; 2]%nat -> not_given_up (snd (snd (fst x))) c)
  /\ In (NMake (Ok 0%nat)) (snd (snd (fst x))).
Proof.
  cbv zeta. split; [|split; [repeat constructor; cbn; intuition discriminate|]].
  - destruct (demo_events 2 mixed_script CrowdCases.crowd_day) as [[d [w tr]] rs] eqn:E. exact (CrowdCases.events_mingled _ _ _ _ _ _ _ _ _ _ _ _ (mi_new _ _ _ _) E).
  - assert (X : exists tr, snd (snd (fst (demo_events 2 mixed_script CrowdCases.crowd_day))) = tr
      /\ (forall c, In c [1; 2]%nat -> not_given_up tr c) /\ In (NMake (Ok 0%nat)) tr).
    { eexists. split; [vm_compute; reflexivity|]. split; [|cbn; tauto]. intros c [<-|[<-|[]]]; (split; [split|]); cbn; try tauto; intuition discriminate. }
    destruct X as (tr & -> & X). exact X.
Qed.
(** Connections that were found dead are not closed, and their sockets stay open: over a server that hangs up, a pool of
    one connection soon has two open. *)
Theorem C138_refuted : exists N p P tr d w, fresh_net N DemoShare.cells_made
  /\ over_sessions N DemoShare.cells_made p P (Messages.str "neo4j") (Messages.str "secret") DemoShare.cell
  /\ mingled N (session_use polite DemoShare.cells_made P DemoShare.cell) 1 [] tr d w
  /\ not_closed tr 0 /\ not_closed tr 1
  /\ Connection.c_closed (fst (DemoShare.cell w 0)) = false /\ Connection.c_closed (fst (DemoShare.cell w 1)) = false.
Proof. exact CrowdCases.two_of_one. Qed.
Print Assumptions C138_refuted.
(** There is no other limit either: a pool of one connection gets to have any number open. *)
Theorem C138_unbounded_refuted k : exists N p P tr d w, fresh_net N DemoShare.cells_made
  /\ over_sessions N DemoShare.cells_made p P (Messages.str "neo4j") (Messages.str "secret") DemoShare.cell
  /\ mingled N (session_use polite DemoShare.cells_made P DemoShare.cell) 1 [] tr d w
  /\ forall c, (c < k)%nat -> not_closed tr c /\ Connection.c_closed (fst (DemoShare.cell w c)) = false.
Proof. exact (CrowdGrows.no_limit k). Qed.
Print Assumptions C138_unbounded_refuted.
