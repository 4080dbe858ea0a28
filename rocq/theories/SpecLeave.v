(** Vocabulary for C141: the connections a routing pool leaves open while goroutines use it. *)
From Coq Require Import List.
From Verif Require Import GoErr GoVal Pool PoolRace.
Import ListNotations.

(** The operation starts the pool. *)
Definition begins (o : pop) : bool := match o with OStart => true | _ => false end.
(** A goroutine has ended. *)
Definition over (t : gprog) : Prop := match t with GDone _ | GEnd => True | _ => False end.
