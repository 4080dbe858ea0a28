(** Vocabulary for C134: a routing pool whose borrowers leave no transactions behind. *)
From Coq Require Import String ZArith List Bool.
From Verif Require Import Bytes GoVal GoErr SpecValues SpecServer Messages Connection Link Wire SpecSession SpecShare SpecJourney.
From Verif Require Pool SpecPool.
Import ListNotations.
Open Scope Z_scope.

(** The members of the cluster are asked for as the code asks for them (routing_handler.go:104-108, 15-16); a question that
    is not answered changes nothing. *)
Definition asks_overview {W} (K : Pool.cluster W) (opened : W -> list nat) (P : nat -> peer) (cell : W -> nat -> conn * wire) : Prop :=
  forall h w w' v r, Pool.k_query K h w = (w', (v, r)) -> In h (opened w) ->
  cell w' h = cell w h \/ exists r', does (wired (P h)) (overview_of (fst (cell w h))) (cell w h) (cell w' h) r'.
(** Every transaction begun on the connection has been committed or rolled back. *)
Definition no_loose_ends (c : conn) : Prop := forall t, tx_closed c t = true.

(** A routing pool, its operations, and calls on connections by those who hold them. Who gives a connection back is its
    holder, under the name it was lent under, and has ended the transactions begun on it. *)
Inductive courteous {W} (K : Pool.cluster W) (use : nat -> W -> W -> Prop) (fit : nat -> W -> Prop) (p0 : Pool.pool) (w0 : W)
  : list (Pool.pop * Pool.presult) -> Pool.pool -> W -> list SpecPool.kevent -> Prop :=
| co_new : courteous K use fit p0 w0 [] p0 w0 []
| co_op l p w tr o p' w' tr' r : courteous K use fit p0 w0 l p w tr ->
    match o with Pool.OReclaim id h => In h (SpecPool.lent l) /\ (exists m, In (Pool.OBorrow m, Pool.RLent id h) l) /\ fit h w | _ => True end ->
    Pool.do_pop (SpecPool.watch K) o p (w, tr) = (p', (w', tr'), r) -> courteous K use fit p0 w0 (l ++ [(o, r)]) p' w' tr'
| co_use l p w tr h w' : courteous K use fit p0 w0 l p w tr -> In h (SpecPool.lent l) -> use h w w' -> courteous K use fit p0 w0 l p w' tr.
(** A call on [h] that returns, and changes nothing else. *)
Definition holder_use {W} (opened : W -> list nat) (named : W -> list bytes) (P : nat -> peer) (cell : W -> nat -> conn * wire)
  (h : nat) (w w' : W) : Prop := named w' = named w /\ session_use polite opened P cell h w w'.

(** What an event is about, if it does not make a connection. *)
Definition dealt (e : SpecPool.kevent) : option nat :=
  match e with
  | SpecPool.KDial _ _ => None
  | SpecPool.KValid h _ => Some h
  | SpecPool.KClose h _ => Some h
  | SpecPool.KQuery h _ _ => Some h
  end.
(** A use of a connection, whatever it does to the world, makes and names no connections. *)
Definition any_use {W} (opened : W -> list nat) (named : W -> list bytes) (h : nat) (w w' : W) : Prop :=
  opened w' = opened w /\ named w' = named w.

(** Somebody holds [h]. [in_care h s own s']: from the state [s] to the state [s'] they made the calls [own] on it and got these
    answers, while anybody did anything with the pool and with the connections they held. A state is the log of the operations
    of the pool, the pool, the world and the trace. *)
Section Care.
Context {W : Type}.
Variables (K : Pool.cluster W) (opened : W -> list nat) (named : W -> list bytes) (P : nat -> peer) (cell : W -> nat -> conn * wire) (h : nat).
Definition rstate := (list (Pool.pop * Pool.presult) * Pool.pool * W * list SpecPool.kevent)%type.
Inductive in_care (s : rstate) : list (call * res answer) -> rstate -> Prop :=
| ic_start : in_care s [] s
| ic_op own l q w tr o q' w' tr' r : in_care s own (l, q, w, tr) ->
    match o with
    | Pool.OReclaim id d => d <> h /\ In d (SpecPool.lent l) /\ (exists m, In (Pool.OBorrow m, Pool.RLent id d) l) /\ no_loose_ends (fst (cell w d))
    | _ => True
    end -> Pool.do_pop (SpecPool.watch K) o q (w, tr) = (q', (w', tr'), r) -> in_care s own (l ++ [(o, r)], q', w', tr')
| ic_other own l q w tr d w' : in_care s own (l, q, w, tr) -> In d (SpecPool.lent l) -> d <> h -> holder_use opened named P cell d w w' ->
    in_care s own (l, q, w', tr)
| ic_own own l q w tr o r w' : in_care s own (l, q, w, tr) -> opened w' = opened w -> named w' = named w ->
    (forall d, d <> h -> cell w' d = cell w d) -> polite (fst (cell w h)) o -> does (wired (P h)) o (cell w h) (cell w' h) r ->
    in_care s (own ++ [(o, r)]) (l, q, w', tr).
End Care.
