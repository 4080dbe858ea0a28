(** Messages that ask for more than they carry: for C114 and C115. *)
From Coq Require Import ZArith List Bool.
From Verif Require Import Bytes GoVal.
Import ListNotations.
Open Scope Z_scope.

(** [k] times the head of a list of 2^31-1 elements (Bolt: D6 and the size in four bytes), each as the first
    element of the one before; no list ends *)
Definition boast : bytes := [xd6; x7f; xff; xff; xff].
Fixpoint boasts (k : nat) : bytes := match k with O => [] | S k' => boast ++ boasts k' end.

(** a list in a list in a list, [n] deep (Bolt: 91 is a list of one element, C0 is null), and its value *)
Definition onions (n : nat) : bytes := repeat x91 n ++ [xc0].
Fixpoint onion (n : nat) : gval := match n with O => GNil | S n' => GSlice [onion n'] end.

(** the bytes that begin a list, a map or a structure (Bolt: 90-BF, D4-D6, D8-DA, DC, DD), and how many a message contains *)
Definition opening (c : Byte.byte) : bool :=
  let n := bz c in
  (144 <=? n) && (n <=? 191) || (212 <=? n) && (n <=? 214) || (216 <=? n) && (n <=? 218) || (220 <=? n) && (n <=? 221).
Definition openings (b : bytes) : nat := length (filter opening b).
