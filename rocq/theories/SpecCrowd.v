(** Vocabulary for C138: how many connections a driver pool has open. *)
From Coq Require Import ZArith List Bool.
From Verif Require Import Bytes GoVal GoErr DriverPool SpecDriver.
Import ListNotations.

(** A driver pool of size [max], whatever is asked of it, in whatever order, also by those who hold nothing; in between
    connections are used. [tr] is what the pool did with connections, the latest first. *)
Inductive mingled {W} (N : net W) (use : nat -> W -> W -> Prop) (max : Z) (w0 : W) : list nevent -> dpool -> W -> Prop :=
| mi_new : mingled N use max w0 [] (new_driver_pool max) w0
| mi_event tr d w e d' w' tr' r : mingled N use max w0 tr d w -> do_event (watch_net N) e d (w, tr) = (d', (w', tr'), r) ->
    mingled N use max w0 tr' d' w'
| mi_use tr d w c w' : mingled N use max w0 tr d w -> use c w w' -> mingled N use max w0 tr d w'.

(** The pool has made the connection and has not asked it to close. *)
Definition not_closed (tr : list nevent) (c : nat) : Prop := In (NMake (Ok c)) tr /\ forall r, ~ In (NClose c r) tr.
(** And it has not found it dead either. *)
Definition not_given_up (tr : list nevent) (c : nat) : Prop := not_closed tr c /\ ~ In (NValid c false) tr.
