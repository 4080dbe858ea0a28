(** Vocabulary for what decoding writes to the standard output. Independent of Stdout.v. *)
From Coq Require Import ZArith List Bool Permutation.
From Verif Require Import Bytes GoVal.
Import ListNotations.
Open Scope Z_scope.

(** The local times in a value, in order, as nanoseconds of the day. *)
Fixpoint clocks (x : gval) : list Z :=
  match x with
  | GLocalClock n => [n]
  | GSlice l | GTSlice l | GRecord l | GStructure _ l => flat_map clocks l
  | GMap m | GNode _ _ m | GRel _ _ _ _ m | GURel _ _ m | GSuccess m | GFailure m => flat_map (fun kv => clocks (snd kv)) m
  | GPath ns rs _ => flat_map clocks ns ++ flat_map clocks rs
  | _ => []
  end.
(** All of [a] are among [b], as often as in [a]. *)
Definition within (a b : list Z) : Prop := exists other, Permutation b (a ++ other).
(** How often the letter t, the signature of a local time, stands in a message. *)
Definition letters_t (b : bytes) : nat := count_occ Byte.byte_eq_dec b x74.
