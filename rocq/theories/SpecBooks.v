(** Vocabulary for C137: what becomes of the connections a routing pool opens. *)
From Coq Require Import ZArith List Bool.
From Verif Require Import Bytes GoVal GoErr.
From Verif Require Pool SpecPool.
Import ListNotations.

(** A pool, its operations, and whatever the holders of connections do meanwhile, as in [courteous]; and besides the
    connections that were idle when the pool was told to stop. *)
Inductive booked {W} (K : Pool.cluster W) (use : nat -> W -> W -> Prop) (p0 : Pool.pool) (w0 : W)
  : list (Pool.pop * Pool.presult) -> list nat -> Pool.pool -> W -> list SpecPool.kevent -> Prop :=
| bk_new : booked K use p0 w0 [] [] p0 w0 []
| bk_op l stopped p w tr o p' w' tr' r : booked K use p0 w0 l stopped p w tr ->
    match o with Pool.OReclaim id h => In h (SpecPool.lent l) /\ (exists m, In (Pool.OBorrow m, Pool.RLent id h) l) | _ => True end ->
    Pool.do_pop (SpecPool.watch K) o p (w, tr) = (p', (w', tr'), r) ->
    booked K use p0 w0 (l ++ [(o, r)]) (match o with Pool.OStop => SpecPool.idle p ++ stopped | _ => stopped end) p' w' tr'
| bk_use l stopped p w tr h w' : booked K use p0 w0 l stopped p w tr -> In h (SpecPool.lent l) -> use h w w' -> booked K use p0 w0 l stopped p w' tr.

(** The pool has asked the connection to close. *)
Definition told_to_close (tr : list SpecPool.kevent) (h : nat) : Prop := exists e, In (SpecPool.KClose h e) tr.
(** ValidateOpen has called the connection closed, and open when it was called again at once. *)
Definition wavered (tr : list SpecPool.kevent) (h : nat) : Prop :=
  exists later before s, tr = later ++ SpecPool.KValid h true :: SpecPool.KValid h false :: before /\ In (SpecPool.KDial s (Ok h)) before.
