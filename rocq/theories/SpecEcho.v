(** A server that returns the parameters of a statement. *)
From Coq Require Import ZArith List Bool.
From Verif Require Import Bytes GoVal SpecPack SpecServer.
Import ListNotations.

(** The statement was executed and gave one row: the values of the parameters that the server received. *)
Definition echoes (v : ver) (st : stmt) (x : outcome) : Prop :=
  exists rm row md, x = Produced rm [row] md /\ Forall2 (fun p g => meaning v (snd p) = Some g) (st_params st) row.
