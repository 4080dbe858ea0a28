(** Theorem C139: how many connections a routing pool has open. *)
From Coq Require Import String ZArith List Bool.
From Verif Require Import Bytes GoVal GoErr Messages Pool SpecPool SpecShare SpecManners SpecBooks SpecThrong SpecLeave ThrongFacts LeaveSize.
From Verif Require DemoPool DemoShare MannersCases ThrongAlive ThrongCases LeaveGrows.
Import ListNotations.
Open Scope Z_scope.

(** ** C139: true of pools that are not started again *)
(** Nobody has to give back what they hold, or only that. *)
Theorem C139_size_partial W (K : cluster W) opened named leader n auth tls q0 w0 os q w tr L :
  fresh K opened named -> 2 <= n -> new_routing_pool leader n auth tls = Ok q0 ->
  thronged K (any_use opened named) q0 w0 os q w tr -> no_restart false os ->
  NoDup L -> (forall h, In h L -> left_open tr h /\ ~ wavered tr h) -> Z.of_nat (length L) <= n.
Proof. intros F. exact (no_throng K opened named F auth tls leader n q0 w0 os q w tr L). Qed.
Print Assumptions C139_size_partial.
(** Over conforming servers ValidateOpen does not contradict itself. *)
Theorem C139_sessions_partial W (K : cluster W) opened named p P cell leader n auth tls q0 w0 os q w tr L :
  fresh K opened named -> cluster_sessions K opened p P cell -> asks_overview K opened P cell ->
  2 <= n -> new_routing_pool leader n auth tls = Ok q0 ->
  thronged K (holder_use opened named P cell) q0 w0 os q w tr -> no_restart false os ->
  NoDup L -> (forall h, In h L -> left_open tr h) -> Z.of_nat (length L) <= n.
Proof. intros F C A. exact (ThrongAlive.no_throng_sessions K opened named p P cell F C A auth tls leader n q0 w0 os q w tr L). Qed.
Print Assumptions C139_sessions_partial.
(** Whatever ValidateOpen says, whatever is done to connections, and whether or not those of a cluster are distinct. *)
Theorem C139_open_partial W (K : cluster W) use leader n auth tls q0 w0 os q w tr L :
  2 <= n -> new_routing_pool leader n auth tls = Ok q0 -> thronged K use q0 w0 os q w tr -> no_restart false os ->
  NoDup L -> (forall h, In h L -> left_open tr h) -> Z.of_nat (length L) <= n.
Proof. exact (leaves_alone K use leader n auth tls q0 w0 os q w tr L). Qed.
Print Assumptions C139_open_partial.
(** A pool that is started more often: each Start leaves no more open than the size. *)
Theorem C139_starts_partial W (K : cluster W) use leader n auth tls q0 w0 os q w tr L :
  2 <= n -> new_routing_pool leader n auth tls = Ok q0 -> thronged K use q0 w0 os q w tr ->
  NoDup L -> (forall h, In h L -> left_open tr h) -> Z.of_nat (length L) <= Z.of_nat (length (filter begins os)) * n.
Proof. exact (leaves_alone_starts K use leader n auth tls q0 w0 os q w tr L). Qed.
Print Assumptions C139_starts_partial.
(** Both places are taken. *)
Example C139_case : fresh DemoShare.town_cluster DemoShare.opened_cells DemoShare.named_cells
  /\ cluster_sessions DemoShare.town_cluster DemoShare.opened_cells (fun _ => P4) DemoShare.town DemoShare.cell_of
  /\ asks_overview DemoShare.town_cluster DemoShare.opened_cells DemoShare.town DemoShare.cell_of
  /\ new_routing_pool DemoPool.leader_string 2 (str "neo4j:secret") [] = Ok (DemoPool.demo_pool 2)
  /\ thronged DemoShare.town_cluster (holder_use DemoShare.opened_cells DemoShare.named_cells DemoShare.town DemoShare.cell_of) (DemoPool.demo_pool 2) ([], 0%nat)
       ThrongCases.throng_ops (fst (fst ThrongCases.throng_run)) (fst (snd (fst ThrongCases.throng_run))) (snd (snd (fst ThrongCases.throng_run)))
  /\ no_restart false ThrongCases.throng_ops /\ NoDup [1; 2]%nat
  /\ (forall h, In h [1; 2]%nat -> left_open (snd (snd (fst ThrongCases.throng_run))) h).
Proof.
  split; [apply DemoShare.session_cluster_fresh|]. split; [apply DemoShare.session_cluster_over; [exact DemoShare.town_conforms|vm_compute; discriminate..]|].
  split; [apply MannersCases.session_cluster_asks|]. split; [reflexivity|]. split; [exact ThrongCases.throng_thronged|].
  split; [cbn; intuition discriminate|]. split; [repeat constructor; cbn; intuition discriminate|exact ThrongCases.throng_open].
Qed.
(** Stopping leaves connections open, and starting again opens as many anew: a pool of two has four open. *)
Theorem C139_refuted : exists K p P q0 os q w tr, fresh K DemoShare.opened_cells DemoShare.named_cells
  /\ cluster_sessions K DemoShare.opened_cells p P DemoShare.cell_of /\ asks_overview K DemoShare.opened_cells P DemoShare.cell_of
  /\ new_routing_pool DemoPool.leader_string 2 (str "neo4j:secret") [] = Ok q0
  /\ thronged K (holder_use DemoShare.opened_cells DemoShare.named_cells P DemoShare.cell_of) q0 ([], 0%nat) os q w tr
  /\ NoDup [1; 2; 4; 5]%nat /\ (forall h, In h [1; 2; 4; 5]%nat -> left_open tr h /\ Connection.c_closed (fst (DemoShare.cell_of w h)) = false).
Proof. exact ThrongCases.four_of_two. Qed.
Print Assumptions C139_refuted.
(** There is no bound: started and stopped one time after another, a pool of two has twice as many connections open as it was started, which is what C139_starts_partial allows. *)
Theorem C139_grows_refuted use k : exists K q0 os q w tr L, fresh K DemoPool.d_opened DemoPool.d_named
  /\ new_routing_pool DemoPool.leader_string 2 (str "neo4j:secret") [] = Ok q0
  /\ thronged K use q0 DemoPool.d_start os q w tr /\ length (filter begins os) = S k
  /\ NoDup L /\ (forall h, In h L -> left_open tr h) /\ length L = (2 * S k)%nat.
Proof. exact (LeaveGrows.twice_as_many use k). Qed.
Print Assumptions C139_grows_refuted.
