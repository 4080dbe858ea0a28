(** A cluster to try the routing pool on. *)
From Coq Require Import String ZArith List Bool.
From Verif Require Import Bytes GoVal GoErr Decoder Messages GoStr Routing Pool SpecPool.
Import ListNotations.
Open Scope Z_scope.

(** The next connection, the time (every operation takes one unit), and the connections closed. *)
Record dworld := mkD { d_next : nat; d_time : nat; d_closed : list nat }.
Definition tick (w : dworld) : dworld := mkD (d_next w) (S (d_time w)) (d_closed w).
(** [alive h t]: connection [h] works at time [t]; [stuck h]: closing it fails; [view t]: the answer
    to the overview query at time [t]; [reach s]: [s] can be connected to. Names are runs of the letter
    a, as long as the time. *)
Definition demo_cluster (alive : nat -> nat -> bool) (stuck : nat -> bool) (view : nat -> Z * res (list (list gval))) (reach : bytes -> bool) : cluster dworld :=
  mkCluster
    (fun s w => if reach s then (mkD (S (d_next w)) (S (d_time w)) (d_closed w), Ok (d_next w)) else (tick w, Err (ENew (TMsg 1))))
    (fun h w => (tick w, alive h (d_time w) && negb (listed h (d_closed w))))
    (fun h w => if stuck h then (tick w, Some (ENew (TMsg 2))) else (mkD (d_next w) (S (d_time w)) (h :: d_closed w), None))
    (fun h w => (tick w, view (d_time w)))
    (fun w => (tick w, repeat "a"%byte (d_time w))).
Definition d_opened (w : dworld) : list nat := seq 0 (d_next w).
Definition d_named (w : dworld) : list bytes := map (repeat "a"%byte) (seq 0 (d_time w)).
Definition d_start : dworld := mkD 0 0 [].

(** Rows of an overview, as Neo4j 4 sends them. *)
Definition server (id : bytes) (address : bytes) (role : bytes) : list gval :=
  [GStr id; GSlice (map GStr [address; str "http://somewhere:7474"]); GMap [(str "neo4j", GStr (str "FOLLOWER")); (str "system", GStr role)]; GSlice []].
Definition usual : list (list gval) :=
  [server (str "1") (str "bolt://one:7687") (str "LEADER");
   server (str "2") (str "bolt://two:7687") (str "FOLLOWER");
   server (str "3") (str "bolt://three:7687") (str "FOLLOWER");
   server (str "4") (str "bolt://four:7687") (str "READ_REPLICA")].
(** Another leader; one reader is left. *)
Definition changed : list (list gval) :=
  [server (str "5") (str "bolt://five:7687") (str "LEADER");
   server (str "2") (str "bolt://two:7687") (str "FOLLOWER")].
Definition overviews (t0 : nat) (t : nat) : Z * res (list (list gval)) := (4, Ok (if Nat.ltb t t0 then usual else changed)).
Definition always (h t : nat) : bool := true.
Definition anywhere (s : bytes) : bool := true.
Definition unstuck (h : nat) : bool := false.
(** All is well; the leader changes at time [t0]. *)
Definition calm (t0 : nat) : cluster dworld := demo_cluster always unstuck (overviews t0) anywhere.

Definition leader_string : bytes := str "bolt+routing://one:7687".
Definition demo_pool (n : Z) : pool :=
  match new_routing_pool leader_string n (str "neo4j:secret") [] with
  | Ok p => p
  | _ => mkPool [] [] [] false 0 0 0 0 0 no_handler [] [] [] [] 0 [] [] 0 [] []
  end.
Definition demo_run (K : cluster dworld) (n : Z) (os : list pop) := run_pool (watch K) os (demo_pool n) (d_start, []).
(** The identifier under which a result lends a connection. *)
Definition lent_id (r : presult) : bytes := match r with RLent id _ => id | _ => [] end.
Definition lent_conn (r : presult) : nat := match r with RLent _ h => h | _ => 0%nat end.
(** Connection [h0] dies at time [t0]. *)
Definition dies (h0 t0 h t : nat) : bool := negb (Nat.eqb h h0) || Nat.ltb t t0.
(** Connection 1, to the leader, dies at time 8, after having been lent. *)
Definition mortal : cluster dworld := demo_cluster (dies 1 8) unstuck (overviews 1000) anywhere.
(** The same, and it cannot be closed. *)
Definition stubborn : cluster dworld := demo_cluster (dies 1 8) (Nat.eqb 1) (overviews 1000) anywhere.
(** Connection 3 dies and cannot be closed; the cluster shrinks at time 12. *)
Definition shrinking : cluster dworld := demo_cluster (dies 3 14) (Nat.eqb 3) (overviews 12) anywhere.
Definition the_pool {A B} (x : pool * A * B) : pool := fst (fst x).
Definition the_world {A} (x : pool * (dworld * list kevent) * A) : dworld := fst (snd (fst x)).
Definition the_trace {A} (x : pool * (dworld * list kevent) * A) : list kevent := snd (snd (fst x)).
Definition the_log {A B} (x : pool * A * B) : B := snd x.
