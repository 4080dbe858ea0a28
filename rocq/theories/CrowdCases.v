(** How many connections a driver pool has open: cases. *)
From Coq Require Import String ZArith List Bool Lia.
From Verif Require Import Bytes GoVal GoErr SpecValues SpecServer Messages Connection Link ExecFacts Wire SpecSession SpecShare Demo DemoFacts Cases CaseFacts DemoShare.
From Verif Require DriverPool SpecDriver DemoDriver.
From Verif Require Import SpecCrowd.
Import DriverPool(devent(..), dres(..), new_driver_pool, do_event, do_events).
Import SpecDriver(nevent(..), watch_net, driver_history).
Import ListNotations.
Open Scope Z_scope.

(** A server that fails the second statement, and hangs up when it is then asked to roll back. *)
Definition sheds (c : nat) : peer := server P4 [done; done; oops] true.
Definition shed_net : DriverPool.net cells := session_net sheds 50 (str "neo4j") (str "secret").
Definition shed_lent := do_event (watch_net shed_net) EvOpen (new_driver_pool 1) ([], []).
Definition shed_begun : cells := use_cell sheds 50 (CBegin []) 0 (fst (snd (fst shed_lent))).
Definition shed_queried : cells := use_cell sheds 50 (CTxQuery 0 q1 ps []) 0 shed_begun.
Definition shed_left : cells := use_cell sheds 50 (CCommit 0) 0 shed_queried.
Definition shed_back := do_event (watch_net shed_net) (EvReclaim (Some 0%nat)) (fst (fst shed_lent)) (shed_left, snd (snd (fst shed_lent))).
Definition shed_again := do_event (watch_net shed_net) EvOpen (fst (fst shed_back)) (snd (fst shed_back)).
Lemma shed_mingled : mingled shed_net (session_use polite cells_made sheds cell) 1 [] (snd (snd (fst shed_again))) (fst (fst shed_again)) (fst (snd (fst shed_again))).
Proof.
  apply mi_event with (tr := snd (snd (fst shed_back))) (d := fst (fst shed_back)) (w := fst (snd (fst shed_back))) (e := EvOpen) (r := snd shed_again); [|vm_compute; reflexivity].
  apply mi_event with (tr := snd (snd (fst shed_lent))) (d := fst (fst shed_lent)) (w := shed_left) (e := EvReclaim (Some 0%nat)) (r := snd shed_back); [|vm_compute; reflexivity].
  apply mi_use with (c := 0%nat) (w := shed_queried).
  - apply mi_use with (c := 0%nat) (w := shed_begun).
    + apply mi_use with (c := 0%nat) (w := fst (snd (fst shed_lent))).
      * apply mi_event with (tr := []) (d := new_driver_pool 1) (w := []) (e := EvOpen) (r := snd shed_lent); [constructor|vm_compute; reflexivity].
      * apply use_cell_ok; [vm_compute; auto| |vm_compute; discriminate]. split; [apply clean_call_true; vm_compute; reflexivity|exact Logic.I].
    + apply use_cell_ok; [vm_compute; auto| |vm_compute; discriminate]. split; [apply clean_call_true; vm_compute; reflexivity|vm_compute; reflexivity].
  - apply use_cell_ok; [vm_compute; auto| |vm_compute; discriminate]. split; [apply clean_call_true; vm_compute; reflexivity|exact Logic.I].
Qed.
(** A pool of one connection has two open; it has asked neither to close. *)
Theorem two_of_one : exists N p P tr d w, SpecDriver.fresh_net N cells_made /\ over_sessions N cells_made p P (str "neo4j") (str "secret") cell
  /\ mingled N (session_use polite cells_made P cell) 1 [] tr d w
  /\ not_closed tr 0 /\ not_closed tr 1 /\ c_closed (fst (cell w 0)) = false /\ c_closed (fst (cell w 1)) = false.
Proof.
  exists shed_net, (fun _ => P4), sheds, (snd (snd (fst shed_again))), (fst (fst shed_again)), (fst (snd (fst shed_again))).
  split; [apply session_net_fresh|]. split; [apply session_net_over; [intros c; apply demo_conforming; plain_all|vm_compute; discriminate..]|].
  split; [exact shed_mingled|].
  assert (X : exists tr, snd (snd (fst shed_again)) = tr /\ In (NMake (Ok 0%nat)) tr /\ In (NMake (Ok 1%nat)) tr /\ forall c r, ~ In (NClose c r) tr).
  { eexists. split; [vm_compute; reflexivity|]. cbn. intuition discriminate. }
  destruct X as (tr & -> & H0 & H1 & H2). repeat split; auto; vm_compute; reflexivity.
Qed.
(** What a run of the demonstration leaves. *)
Lemma events_mingled {W} (N : DriverPool.net W) use max w0 l : forall d w tr d0 w1 tr1 rs, mingled N use max w0 tr d w ->
  do_events (watch_net N) l d (w, tr) = (d0, (w1, tr1), rs) -> mingled N use max w0 tr1 d0 w1.
Proof.
  induction l as [|e l IH]; intros d w tr d0 w1 tr1 rs B E; cbn [do_events] in E; [injection E as <- <- <- _; exact B|].
  destruct (do_event (watch_net N) e d (w, tr)) as [[d2 [w2 tr2]] r] eqn:E1. destruct (do_events (watch_net N) l d2 (w2, tr2)) as [[d3 x3] rs3] eqn:E2.
  injection E as -> -> _. exact (IH _ _ _ _ _ _ _ (mi_event _ _ _ _ _ _ _ _ _ _ _ _ B E1) E2).
Qed.
Definition crowd_day : list devent := [EvOpen; EvOpen; EvReclaim (Some 0%nat); EvReclaim (Some 0%nat); EvReclaim (Some 7%nat); EvOpen; EvOpen; EvReclaim (Some 1%nat); EvWake].
