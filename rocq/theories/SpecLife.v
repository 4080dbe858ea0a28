(** Statement-level vocabulary for the life of a routing pool (C93, C97 to C99). *)
From Coq Require Import String ZArith List Bool.
From Verif Require Import Bytes GoVal GoErr Decoder Messages GoStr Routing Pool SpecPool Refresher.
Import ListNotations.
Open Scope Z_scope.

(** The refreshers there are. *)
Definition refreshers {W} (s : life W) : nat := (l_test s + l_wait s)%nat.
(** The calls of Start that succeeded. *)
Definition started (l : list levent) : nat := length (filter (fun e => match e with LDo OStart RDone => true | _ => false end) l).
(** Rounds of refreshing. *)
Definition rounds (l : list levent) : nat := length (filter (fun e => match e with LWake _ => true | _ => false end) l).
(** Start is not called. *)
Definition unstarted (l : list levent) : Prop := forall r, ~ In (LDo OStart r) l.
(** No call of Start failed but because the pool was running ([on]: Start was called after the last Stop). *)
Fixpoint starts_well (on : bool) (l : list levent) : Prop :=
  match l with
  | [] => True
  | LDo OStart r :: l' => (r = RDone \/ on = true) /\ starts_well true l'
  | LDo OStop _ :: l' => starts_well false l'
  | _ :: l' => starts_well on l'
  end.
(** The calls made. *)
Definition calls (l : list levent) : list pop := flat_map (fun e => match e with LDo o _ => [o] | _ => [] end) l.
(** There are more than [i] connection strings for these members. *)
Definition room (auth tls : bytes) (members : list node) (i : Z) : Prop :=
  exists ds, NoDup ds /\ (forall d, In d ds -> exists m, In m members /\ dressed auth tls (n_bolt m) d) /\ 0 <= i < zlen ds.
