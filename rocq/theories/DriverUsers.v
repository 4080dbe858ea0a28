(** Goroutines that share a driver pool. *)
From Coq Require Import String ZArith List Bool.
From Verif Require Import Bytes GoVal GoErr Messages Concurrency DriverPool.
Import ListNotations.
Open Scope Z_scope.

(** A goroutine that takes a connection [k] times more, each time giving it back before the next; one that
    waits in Open (driver_pool.go:48, holding refLock) and has [k] times left after this one; one that holds
    a connection; one that is about to call Close; one that a call has failed for, with the result.
    Simplification: a call is one step, except that Open may wait between two. Open and Close exclude each
    other anyway (refLock); that Reclaim may overlap with them inside the object pool is left to that
    library's own locks. *)
Inductive user := URest (k : nat) | UWait (k : nat) | UHold (c : nat) (k : nat) | UClose | UFail (r : dres).
Definition at_rest (u : user) : bool := match u with URest O | UFail _ => true | _ => false end.

Section Users.
Context {W : Type}.
Variable N : net W.
(** What Open gave. *)
Definition after_open (r : dres) (k : nat) : user := match r with DLent c => UHold c k | DWait => UWait k | _ => UFail r end.
(** One step of one goroutine; None: finished, waiting for refLock or for a connection.
    driver_pool.go:44-65 open, 67-84 close, 86-92 reclaim *)
Definition user_step (u : user) (d : dpool) (w : W) : option (dpool * W * user) :=
  match u with
  | URest O | UFail _ => None
  | URest (S k) =>
      if q_waiting (d_pool d) then None
      else let '(d, w, r) := pool_open N d w in Some (d, w, after_open r k)
  | UWait k =>
      match q_idle (d_pool d) with
      | [] => None
      | _ => let '(d, w, r) := pool_wake N d w in Some (d, w, after_open r k)
      end
  | UHold c k => let '(d, w, r) := pool_reclaim N (Some c) d w in Some (d, w, match r with DDone => URest k | _ => UFail r end)
  | UClose =>
      if q_waiting (d_pool d) then None
      else let '(d, w, r) := pool_close N d w in Some (d, w, match r with DDone => URest 0 | _ => UFail r end)
  end.
Fixpoint users_run (is : list nat) (d : dpool) (w : W) (us : list user) : option (dpool * W * list user) :=
  match is with
  | [] => Some (d, w, us)
  | i :: is' =>
      match nth_error us i with
      | None => None
      | Some u =>
          match user_step u d w with
          | None => None
          | Some (d', w', u') => users_run is' d' w' (put_nth i u' us)
          end
      end
  end.
End Users.
