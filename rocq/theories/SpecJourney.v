(** Vocabulary for C133: a routing client whose servers are conforming servers at addresses. *)
From Coq Require Import String ZArith List Bool.
From Verif Require Import Bytes GoVal GoErr SpecValues SpecServer Messages Connection Link Wire SpecSession GoStr Routing Client SpecClient.
From Verif Require Pool SpecPool.
Import ListNotations.
Open Scope Z_scope.

(** How the members of the cluster are asked for (routing_handler.go:104-108, 15-16), and the rows of the answer. *)
Definition overview_of (c : conn) : call :=
  CQuery (str "call dbms.cluster.overview()") [] (match c_proto c with P4 => str "system" | _ => [] end).
Definition overview_rows (r : res answer) : res (list (list gval)) :=
  match r with Ok (ARows l _) => Ok l | Ok _ => Panic | Err e => Err e | Panic => Panic | NoFuel => NoFuel end.

(** The server at the address [a] is [P a]; a connection string leads to the server at its host and port, with its user name and
    password. [site w h] is the address of the connection [h], [cell w h] the connection with its link. An operation that does not
    return changes nothing. *)
Record cluster_at {W} (K : Pool.cluster W) (opened : W -> list nat) (p : bytes -> proto) (P : bytes -> peer)
  (site : W -> nat -> bytes) (cell : W -> nat -> conn * wire) : Prop := mkClusterAt {
  ca_peers a : conforming (p a) (P a);
  ca_dial s w w' r : Pool.k_dial K s w = (w', r) ->
    (forall h, In h (opened w') -> In h (opened w) \/ r = Ok h)
    /\ (forall h, In h (opened w) -> site w' h = site w h /\ cell w' h = cell w h)
    /\ forall h, r = Ok h -> exists cf, conn_from_string s = Ok cf /\ site w' h = cf_host_port cf
       /\ opens (wired (P (cf_host_port cf))) (cf_user cf) (cf_password cf) new_wire (cell w' h) (Ok tt);
  ca_valid h w w' b : Pool.k_valid K h w = (w', b) ->
    opened w' = opened w /\ (forall d, site w' d = site w d) /\ (forall d, d <> h -> cell w' d = cell w d)
    /\ (In h (opened w) -> cell w' h = cell w h \/ exists r, does (wired (P (site w h))) CValidate (cell w h) (cell w' h) r);
  ca_close h w w' e : Pool.k_close K h w = (w', e) ->
    opened w' = opened w /\ (forall d, site w' d = site w d) /\ (forall d, d <> h -> cell w' d = cell w d)
    /\ (In h (opened w) -> cell w' h = cell w h \/ exists r, does (wired (P (site w h))) CClose (cell w h) (cell w' h) r);
  ca_query h w w' v r : Pool.k_query K h w = (w', (v, r)) ->
    opened w' = opened w /\ (forall d, site w' d = site w d) /\ (forall d, d <> h -> cell w' d = cell w d)
    /\ (In h (opened w) -> v = proto_number (c_proto (fst (cell w h)))
        /\ ((cell w' h = cell w h /\ r = NoFuel)
            \/ exists r', does (wired (P (site w h))) (overview_of (fst (cell w h))) (cell w h) (cell w' h) r' /\ r = overview_rows r'));
  ca_name w : opened (fst (Pool.k_name K w)) = opened w /\ (forall d, site (fst (Pool.k_name K w)) d = site w d)
    /\ forall d, cell (fst (Pool.k_name K w)) d = cell w d
}.

(** A routing pool, its operations, and calls on connections by those who have borrowed them, then or before. *)
Inductive journey {W} (K : Pool.cluster W) (use : nat -> W -> W -> Prop) (p0 : Pool.pool) (w0 : W)
  : list (Pool.pop * Pool.presult) -> Pool.pool -> W -> list SpecPool.kevent -> Prop :=
| jo_new : journey K use p0 w0 [] p0 w0 []
| jo_op l p w tr o p' w' tr' r : journey K use p0 w0 l p w tr -> Pool.do_pop (SpecPool.watch K) o p (w, tr) = (p', (w', tr'), r) ->
    journey K use p0 w0 (l ++ [(o, r)]) p' w' tr'
| jo_use l p w tr h w' : journey K use p0 w0 l p w tr -> (exists m id, In (Pool.OBorrow m, Pool.RLent id h) l) -> use h w w' ->
    journey K use p0 w0 l p w' tr.
(** A call on [h] that returns; its request arrives whole or is refused before a byte is sent. *)
Definition call_at {W} (opened : W -> list nat) (P : bytes -> peer) (site : W -> nat -> bytes) (cell : W -> nat -> conn * wire)
  (h : nat) (w w' : W) : Prop :=
  opened w' = opened w /\ (forall d, site w' d = site w d) /\ (forall d, d <> h -> cell w' d = cell w d)
  /\ exists o r, clean_call (fst (cell w h)) o /\ does (wired (P (site w h))) o (cell w h) (cell w' h) r.
(** The server at [a] answered the question for the members with these rows, in a session of [u] with [pw]. *)
Definition said_at (p : bytes -> proto) (P : bytes -> peer) (a u pw : bytes) (v : Z) (rows : list (list gval)) : Prop :=
  v = proto_number (p a)
  /\ exists l x st rm md, session clean_call (p a) (P a) u pw l x
     /\ In (st, Produced rm rows md) (s_done (w_srv (snd x))) /\ is_stmt (codec (p a)) (str "call dbms.cluster.overview()") [] st.
(** The connection [h], borrowed for [m], leads to a member of the cluster that the server at [hp] listed with a role that goes with [m];
    if its address is made of a host and a port, the connection is a session of [u] with [pw] with the server there. *)
Definition leads_right {W} (p : bytes -> proto) (P : bytes -> peer) (site : W -> nat -> bytes) (cell : W -> nat -> conn * wire) (u pw hp : bytes)
  (m : Z) (h : nat) (w : W) : Prop :=
  exists v rows a, said_at p P hp u pw v rows /\ SpecPool.lists v rows (if m =? ReadMode then [Follower; ReadReplica] else [Leader]) a
  /\ forall hh ds n, a = str "bolt://" ++ hh ++ str ":" ++ ds -> Forall host_char hh -> decimal n ds ->
     site w h = hh ++ str ":" ++ ds
     /\ exists l, session clean_call (p (hh ++ str ":" ++ ds)) (P (hh ++ str ":" ++ ds)) u pw l (cell w h).
(** A statement that succeeds on it is executed there, for [u], and answered with what the server produced for it. *)
Definition serves_right {W} (p : bytes -> proto) (P : bytes -> peer) (site : W -> nat -> bytes) (cell : W -> nat -> conn * wire) (u pw hp : bytes)
  (m : Z) (h : nat) (w : W) : Prop :=
  exists v rows a, said_at p P hp u pw v rows /\ SpecPool.lists v rows (if m =? ReadMode then [Follower; ReadReplica] else [Leader]) a
  /\ forall hh ds n o t ps x' ans, a = str "bolt://" ++ hh ++ str ":" ++ ds -> Forall host_char hh -> decimal n ds ->
     statement_of o = Some (t, ps) -> clean_call (fst (cell w h)) o -> ordinary (p (hh ++ str ":" ++ ds)) t = true ->
     does (wired (P (site w h))) o (cell w h) x' (Ok ans) ->
     site w h = hh ++ str ":" ++ ds
     /\ (exists l, session clean_call (p (hh ++ str ":" ++ ds)) (P (hh ++ str ":" ++ ds)) u pw l x')
     /\ exists st rm rs md, s_done (w_srv (snd x')) = s_done (w_srv (snd (cell w h))) ++ [(st, Produced rm rs md)]
        /\ is_stmt (codec (p (hh ++ str ":" ++ ds))) t ps st
        /\ ans = match o with CQuery _ _ _ | CTxQuery _ _ _ _ => ARows rs md | _ => AMeta md end.
