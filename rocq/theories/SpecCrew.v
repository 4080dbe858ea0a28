(** Goroutines that have a borrowed connection (C140). *)
From Coq Require Import List.
From Verif Require Import GoErr GoVal PoolRace.
Import ListNotations.

(** A goroutine is using a connection that it has borrowed, or has ended with one. *)
Definition holding (t : gprog) : bool := match t with GUse _ _ | GDone (Ok _) => true | _ => false end.
Definition holders (ts : list gprog) : nat := length (filter holding ts).
(** A goroutine that starts the pool, one that gives back a connection which was borrowed before. *)
Definition starting (t : task) : bool := match t with TStart => true | _ => false end.
Definition returns (t : task) : Prop := match t with TReclaim _ _ => True | _ => False end.
