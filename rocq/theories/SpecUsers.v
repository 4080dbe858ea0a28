(** Statement-level vocabulary for goroutines that share a driver pool. *)
From Coq Require Import String ZArith List Bool.
From Verif Require Import Bytes GoVal GoErr Messages DriverPool SpecDriver DriverUsers.
Import ListNotations.
Open Scope Z_scope.

(** About to use or to close the pool. *)
Definition begins (u : user) : Prop := match u with URest _ | UClose => True | _ => False end.
(** All went well so far: no connection was found dead, and all that were given back could be made idle. *)
Definition well (tr : list nevent) : Prop := no_deaths tr /\ no_hangs tr /\ no_idle_errors tr.
(** How many steps a goroutine may still make: Open, waiting in it, and Reclaim for each time; Close. *)
Definition steps_left (u : user) : nat := match u with URest k => 3 * k | UWait k => 3 * k + 2 | UHold _ k => 3 * k + 1 | UClose => 1 | UFail _ => 0 end.
Definition all_left (us : list user) : nat := fold_right (fun u n => steps_left u + n)%nat 0%nat us.
