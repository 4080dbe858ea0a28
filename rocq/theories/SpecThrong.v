(** Vocabulary for C139: how many connections a routing pool has open. *)
From Coq Require Import ZArith List Bool.
From Verif Require Import Bytes GoVal GoErr Pool SpecPool SpecBooks.
Import ListNotations.

(** A routing pool, whatever is asked of it, in whatever order, also by those who hold nothing; in between connections are
    used. [os] are the operations, [tr] is what the pool did with connections, the latest first. *)
Inductive thronged {W} (K : cluster W) (use : nat -> W -> W -> Prop) (p0 : pool) (w0 : W) : list pop -> pool -> W -> list kevent -> Prop :=
| th_new : thronged K use p0 w0 [] p0 w0 []
| th_op os p w tr o p' w' tr' r : thronged K use p0 w0 os p w tr -> do_pop (watch K) o p (w, tr) = (p', (w', tr'), r) ->
    thronged K use p0 w0 (os ++ [o]) p' w' tr'
| th_use os p w tr h w' : thronged K use p0 w0 os p w tr -> use h w w' -> thronged K use p0 w0 os p w' tr.

(** The pool has opened the connection and has not asked it to close. *)
Definition left_open (tr : list kevent) (h : nat) : Prop := (exists s, In (KDial s (Ok h)) tr) /\ ~ told_to_close tr h.
