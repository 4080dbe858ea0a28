(** Vocabulary for C142: the connections of a routing pool by what they are for. *)
From Coq Require Import List ZArith Bool.
From Verif Require Import Bytes GoErr GoVal Messages Pool.
Import ListNotations.
Open Scope Z_scope.

(** The borrowed connections for writing, and those for reading. *)
Definition writing (c : wrapper) : bool := pw_mode c =? WriteMode.
Definition lent_for_writing (p : pool) : nat := length (filter (fun x => writing (snd x)) (p_borrowed p)).
Definition lent_for_reading (p : pool) : nat := length (filter (fun x => negb (writing (snd x))) (p_borrowed p)).
(** Idle connections are where they belong. *)
Definition sorted_out (p : pool) : Prop := (forall c, In c (p_wq p) -> writing c = true) /\ (forall c, In c (p_rq p) -> writing c = false).
