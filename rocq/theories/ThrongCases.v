(** How many connections a routing pool has open: cases. *)
From Coq Require Import String ZArith List Bool Lia.
From Verif Require Import Bytes GoVal GoErr SpecServer Messages Connection Link Wire SpecSession SpecShare Demo DemoFacts Cases CaseFacts DemoShare SpecManners MannersCases SpecBooks.
From Verif Require DemoPool.
From Verif Require Import Pool.
From Verif Require Import SpecPool SpecThrong.
Import ListNotations.
Open Scope Z_scope.

Lemma run_thronged {W} (K : cluster W) use p0 w0 os : forall l p w tr p1 w1 tr1 rs, thronged K use p0 w0 l p w tr ->
  run_pool (watch K) os p (w, tr) = (p1, (w1, tr1), rs) -> thronged K use p0 w0 (l ++ os) p1 w1 tr1.
Proof.
  induction os as [|o os IH]; intros l p w tr p1 w1 tr1 rs B E; cbn [run_pool] in E; [injection E as <- <- <- _; now rewrite app_nil_r|].
  destruct (do_pop (watch K) o p (w, tr)) as [[p2 [w2 tr2]] r] eqn:E1. destruct (run_pool (watch K) os p2 (w2, tr2)) as [[p3 x3] rs3] eqn:E2.
  injection E as -> -> _. change (o :: os) with ([o] ++ os). rewrite app_assoc. exact (IH _ _ _ _ _ _ _ _ (th_op _ _ _ _ _ _ _ _ _ _ _ _ _ B E1) E2).
Qed.
Lemma runs_thronged {W} (K : cluster W) use p0 w0 os : let x := run_pool (watch K) os p0 (w0, []) in
  thronged K use p0 w0 os (fst (fst x)) (fst (snd (fst x))) (snd (snd (fst x))).
Proof. cbv zeta. destruct (run_pool (watch K) os p0 (w0, [])) as [[q [w tr]] rs] eqn:E. exact (run_thronged K use p0 w0 os [] _ _ _ _ _ _ _ (th_new _ _ _ _) E). Qed.
(** Servers for a pool that is started twice: the first connection of each start is asked for the overview. *)
Definition metro (c : nat) : peer :=
  match c with O | 3 => server P4 [done; Produced [] DemoPool.usual []] true | _ => server P4 [done; done; rows] true end%nat.
Definition metro_cluster : cluster (cells * nat) := session_cluster metro 50 (str "neo4j") (str "secret").
Lemma metro_conforms c : conforming P4 (metro c).
Proof. destruct c as [|[|[|[|c]]]]; apply demo_conforming; plain_all. Qed.
Definition metro_again := run_pool (watch metro_cluster) [OStart; OStop; OStart] (DemoPool.demo_pool 2) (([], 0%nat), []).
(** A pool of two connections has four open; it was stopped and started again. *)
Theorem four_of_two : exists K p P q0 os q w tr, fresh K opened_cells named_cells /\ cluster_sessions K opened_cells p P cell_of /\ asks_overview K opened_cells P cell_of
  /\ new_routing_pool DemoPool.leader_string 2 (str "neo4j:secret") [] = Ok q0 /\ thronged K (holder_use opened_cells named_cells P cell_of) q0 ([], 0%nat) os q w tr
  /\ NoDup [1; 2; 4; 5]%nat /\ (forall h, In h [1; 2; 4; 5]%nat -> left_open tr h /\ c_closed (fst (cell_of w h)) = false).
Proof.
  exists metro_cluster, (fun _ => P4), metro, (DemoPool.demo_pool 2), [OStart; OStop; OStart], (fst (fst metro_again)), (fst (snd (fst metro_again))), (snd (snd (fst metro_again))).
  split; [apply session_cluster_fresh|]. split; [apply session_cluster_over; [exact metro_conforms|vm_compute; discriminate..]|]. split; [apply session_cluster_asks|].
  split; [reflexivity|]. split.
  { exact (runs_thronged metro_cluster (holder_use opened_cells named_cells metro cell_of) (DemoPool.demo_pool 2) ([], 0%nat) [OStart; OStop; OStart]). }
  split; [repeat constructor; cbn; intuition discriminate|].
  assert (X : exists tr, snd (snd (fst metro_again)) = tr /\ forall h, In h [1; 2; 4; 5]%nat -> left_open tr h).
  { eexists. split; [vm_compute; reflexivity|]. intros h [<-|[<-|[<-|[<-|[]]]]]; (split; [eexists; cbn; tauto|intros [e X]; cbn in X; intuition discriminate]). }
  destruct X as (tr & -> & X). intros h Hh. split; [now apply X|]. destruct Hh as [<-|[<-|[<-|[<-|[]]]]]; vm_compute; reflexivity.
Qed.
(** Two connections; one is lent, and given back by somebody who does not hold it; another is given back that was never lent;
    then the pool is stopped. *)
Definition throng_ops : list pop := [OStart; OBorrow WriteMode; OReclaim (str "nobody") 7; OReclaim (str "1-") 2; OBorrow ReadMode; ORefresh; OStop].
Definition throng_run := run_pool (watch town_cluster) throng_ops (DemoPool.demo_pool 2) (([], 0%nat), []).
Lemma throng_thronged : thronged town_cluster (holder_use opened_cells named_cells town cell_of) (DemoPool.demo_pool 2) ([], 0%nat) throng_ops
  (fst (fst throng_run)) (fst (snd (fst throng_run))) (snd (snd (fst throng_run))).
Proof. exact (runs_thronged town_cluster (holder_use opened_cells named_cells town cell_of) (DemoPool.demo_pool 2) ([], 0%nat) throng_ops). Qed.
Lemma throng_open h : In h [1; 2]%nat -> left_open (snd (snd (fst throng_run))) h.
Proof.
  assert (X : exists tr, snd (snd (fst throng_run)) = tr /\ forall h, In h [1; 2]%nat -> left_open tr h).
  { eexists. split; [vm_compute; reflexivity|]. intros d [<-|[<-|[]]]; (split; [eexists; cbn; tauto|intros [e X]; cbn in X; intuition discriminate]). }
  destruct X as (tr & -> & X). apply X.
Qed.
