(** Statement-level vocabulary for the routing theorems. *)
From Coq Require Import String ZArith List Bool.
From Verif Require Import Bytes GoVal GoErr Decoder Messages GoStr Routing Pool.
Import ListNotations.
Open Scope Z_scope.

(** ** Cluster overviews (C59, C60) *)

(** [folds s t]: [s] is the lower-case ASCII text [t] up to letter case. Two letters outside ASCII
    have lower-case forms in ASCII: U+0130 and U+212A. *)
Inductive folds : bytes -> bytes -> Prop :=
| folds_nil : folds [] []
| folds_same b s t : bz b < 128 -> ~ (65 <= bz b <= 90) -> folds s t -> folds (b :: s) (b :: t)
| folds_upper b c s t : 65 <= bz b <= 90 -> bz c = bz b + 32 -> folds s t -> folds (b :: s) (c :: t)
| folds_dotted s t : folds s t -> folds (xc4 :: xb0 :: s) ("i"%byte :: t)
| folds_kelvin s t : folds s t -> folds (xe2 :: x84 :: xaa :: s) ("k"%byte :: t).

(** The columns of dbms.cluster.overview(): id, addresses, databases, groups since Neo4j 4 (protocol
    version 4); id, addresses, role, groups, database before. *)
Inductive row_says : Z -> list gval -> bytes -> list bytes -> bytes -> Prop :=
| says_v4 id addresses databases role groups :
    map_get databases (str "system") = Some (GStr role) ->
    row_says 4 [GStr id; GSlice (map GStr addresses); GMap databases; groups] id addresses role
| says_v3 v id addresses role groups database :
    v <> 4 ->
    row_says v [GStr id; GSlice (map GStr addresses); GStr role; GSlice (map GStr groups); GStr database] id addresses role.

Inductive role_kind : bytes -> Z -> Prop :=
| kind_leader s : folds s (str "leader") -> role_kind s Leader
| kind_follower s : folds s (str "follower") -> role_kind s Follower
| kind_replica s : folds s (str "read_replica") -> role_kind s ReadReplica.

(** A bolt address: bolt://... *)
Definition bolt_address (a : bytes) : bool := has_prefix (str "bolt://") a.
(** Addresses that mention bolt are bolt addresses. *)
Definition plain_addresses (l : list bytes) : Prop := forall a, In a l -> contains (str "bolt") a = true -> bolt_address a = true.
(** [last_of f l a]: [a] is the last element of [l] that satisfies [f]. *)
Definition last_of (f : bytes -> bool) (l : list bytes) (a : bytes) : Prop :=
  exists l1 l2, l = l1 ++ a :: l2 /\ f a = true /\ Forall (fun b => f b = false) l2.

(** What a row of the overview stands for: a member of a kind with an address at which it can be
    reached with bolt, or nothing, if the member publishes no such address. [bolt] tells bolt
    addresses. *)
Inductive member (bolt : bytes -> bool) (v : Z) (row : list gval) : option (Z * node) -> Prop :=
| member_known id addresses role kind a n :
    row_says v row id addresses role -> last_of bolt addresses a -> role_kind role kind ->
    n_id n = id -> n_addresses n = addresses -> n_bolt n = a -> n_type n = kind ->
    n_action n = (if kind =? Leader then WriteMode else ReadMode) ->
    member bolt v row (Some (kind, n))
| member_silent id addresses role :
    row_says v row id addresses role -> Forall (fun a => bolt a = false) addresses -> member bolt v row None.
Definition of_kind (k : Z) (l : list (option (Z * node))) : list node :=
  flat_map (fun x => match x with Some (k', n) => if k' =? k then [n] else [] | None => [] end) l.
(** The routing table that lists exactly the members of an overview. *)
Definition table_of (bolt : bytes -> bool) (v : Z) (rows : list (list gval)) (h : handler) : Prop :=
  exists ms, Forall2 (member bolt v) rows ms
  /\ h_leaders h = of_kind Leader ms /\ h_followers h = of_kind Follower ms /\ h_replicas h = of_kind ReadReplica ms.
(** The addresses of a row mention bolt only in bolt addresses. *)
Definition plain_row (v : Z) (row : list gval) : Prop :=
  forall id addresses role, row_says v row id addresses role -> plain_addresses addresses.

(** ** Watching the pool *)

Inductive kevent :=
| KDial (s : bytes) (r : res nat)
| KValid (h : nat) (b : bool)
| KClose (h : nat) (e : option gerr)
| KQuery (h : nat) (v : Z) (r : res (list (list gval))).
(** The same cluster, noting what the pool does, the latest first. *)
Definition watch {W} (K : cluster W) : cluster (W * list kevent) :=
  mkCluster
    (fun s w => let '(w', r) := k_dial K s (fst w) in (w', KDial s r :: snd w, r))
    (fun h w => let '(w', b) := k_valid K h (fst w) in (w', KValid h b :: snd w, b))
    (fun h w => let '(w', e) := k_close K h (fst w) in (w', KClose h e :: snd w, e))
    (fun h w => let '(w', (v, r)) := k_query K h (fst w) in (w', KQuery h v r :: snd w, (v, r)))
    (fun w => let '(w', n) := k_name K (fst w) in (w', snd w, n)).

(** Every new connection is a new object, and gets a name that has not been used before (50 random
    characters, routing/util.go:11-17). [opened] and [named] are those there have been. *)
Record fresh {W} (K : cluster W) (opened : W -> list nat) (named : W -> list bytes) : Prop := mkFresh {
  f_dial s w : incl (opened w) (opened (fst (k_dial K s w))) /\ incl (named w) (named (fst (k_dial K s w)));
  f_new s w w' h : k_dial K s w = (w', Ok h) -> ~ In h (opened w) /\ In h (opened w');
  f_valid h w : incl (opened w) (opened (fst (k_valid K h w))) /\ incl (named w) (named (fst (k_valid K h w)));
  f_close h w : incl (opened w) (opened (fst (k_close K h w))) /\ incl (named w) (named (fst (k_close K h w)));
  f_query h w : incl (opened w) (opened (fst (k_query K h w))) /\ incl (named w) (named (fst (k_query K h w)));
  f_name w : incl (opened w) (opened (fst (k_name K w))) /\ incl (named w) (named (fst (k_name K w)));
  f_unused w w' n : k_name K w = (w', n) -> ~ In n (named w) /\ In n (named w')
}.

(** ** Histories of a pool *)

(** A pool was made and used, by one operation after the other. *)
Definition pool_history {W} (K : cluster W) (n : Z) (auth tls : bytes) (w0 : W) (l : list (pop * presult)) (p : pool) (w : W) : Prop :=
  exists leader p0, new_routing_pool leader n auth tls = Ok p0 /\ run_pool K (map fst l) p0 w0 = (p, w, l).

(** What is returned has been lent before, under the same identifier, or comes from elsewhere. *)
Fixpoint honest (before : list (bytes * nat)) (l : list (pop * presult)) : Prop :=
  match l with
  | [] => True
  | (o, r) :: l' =>
      match o with OReclaim id h => In (id, h) before \/ ~ In id (map fst before) | _ => True end
      /\ honest (match r with RLent id h => (id, h) :: before | _ => before end) l'
  end.
(** The connections lent at the end: those lent and not returned since. *)
Definition without (h : nat) (l : list nat) : list nat := filter (fun x => negb (Nat.eqb x h)) l.
Definition lent_by (x : pop * presult) (lent : list nat) : list nat :=
  match x with
  | (OBorrow _, RLent _ h) => h :: lent
  | (OReclaim _ h, RDone) => without h lent
  | _ => lent
  end.
Definition lent (l : list (pop * presult)) : list nat := fold_left (fun acc x => lent_by x acc) l [].
(** No connection is lent while it is lent. *)
Fixpoint exclusive (held : list nat) (l : list (pop * presult)) : Prop :=
  match l with
  | [] => True
  | x :: l' => match snd x with RLent _ h => ~ In h held | _ => True end /\ exclusive (lent_by x held) l'
  end.
(** The idle connections. *)
Definition idle (p : pool) : list nat := map pw_conn (p_wq p) ++ map pw_conn (p_rq p).

(** ** Where connections go (C47) *)

(** An overview the pool can use. *)
Definition readable (v : Z) (rows : list (list gval)) : Prop := exists h, table_of (contains (str "bolt")) v rows h.
(** The latest usable overview in a trace. *)
Definition latest_overview (tr : list kevent) (v : Z) (rows : list (list gval)) : Prop :=
  exists tr1 h tr0, tr = tr1 ++ KQuery h v (Ok rows) :: tr0 /\ readable v rows
  /\ forall h' v' rows', In (KQuery h' v' (Ok rows')) tr1 -> ~ readable v' rows'.
(** An overview lists [a] as an address of a member of one of these kinds. *)
Definition lists (v : Z) (rows : list (list gval)) (kinds : list Z) (a : bytes) : Prop :=
  exists row id addresses role kind, In row rows /\ row_says v row id addresses role
  /\ In a addresses /\ role_kind role kind /\ In kind kinds.
(** [erased pat s r]: [r] is [s] without the occurrences of [pat], found from left to right. *)
Inductive erased (pat : bytes) : bytes -> bytes -> Prop :=
| erased_end : erased pat [] []
| erased_here s r : erased pat s r -> erased pat (pat ++ s) r
| erased_next c s r : (forall t, c :: s <> pat ++ t) -> erased pat s r -> erased pat (c :: s) (c :: r).
(** [dressed auth tls a s]: [s] is the connection string for the address [a] with the given user name,
    password and query. *)
Inductive dressed (auth tls a : bytes) : bytes -> Prop :=
| dressed_not : auth = [] -> tls = [] -> dressed auth tls a a
| dressed_so host : auth <> [] \/ tls <> [] -> erased (str "bolt://") a host -> dressed auth tls a (str "bolt://" ++ auth ++ str "@" ++ host ++ tls).
(** The connection [h] was opened to an address that the latest overview lists with such a kind. *)
Definition goes_to (auth tls : bytes) (kinds : list Z) (tr : list kevent) (h : nat) : Prop :=
  exists tr1 s tr0 v rows a,
  tr = tr1 ++ KDial s (Ok h) :: tr0 /\ latest_overview tr0 v rows /\ lists v rows kinds a
  /\ (s = a \/ dressed auth tls a s).

(** ** Queues (C55) *)

Inductive qop := QPut (c : wrapper) | QTake.
Fixpoint run_queue (l : list qop) (q : queue) : list (option wrapper) * queue :=
  match l with
  | [] => ([], q)
  | QPut c :: l' => run_queue l' (enqueue c q)
  | QTake :: l' => let '(o, q') := dequeue q in let '(os, q'') := run_queue l' q' in (o :: os, q'')
  end.
Definition puts (l : list qop) : list wrapper := flat_map (fun o => match o with QPut c => [c] | QTake => [] end) l.
Definition somes {A} (l : list (option A)) : list A := flat_map (fun o => match o with Some a => [a] | None => [] end) l.

(** ** Rotation (C56) *)

(** The addresses dialled, oldest first. *)
Definition dialled (tr : list kevent) : list bytes := rev (flat_map (fun e => match e with KDial s _ => [s] | _ => [] end) tr).
Definition bytes_dec : forall a b : bytes, {a = b} + {a <> b} := list_eq_dec Byte.byte_eq_dec.
(** The [k] entries of [l] after position [i], going round. *)
Definition cycle (l : list bytes) (i : Z) (k : nat) : list bytes :=
  map (fun j => nth (Z.to_nat ((i + 1 + Z.of_nat j) mod zlen l)) l []) (seq 0 k).

(** ** Other words *)

(** Every connection that was tested works (C49). *)
Definition healthy (tr : list kevent) : Prop := forall h b, In (KValid h b) tr -> b = true.
(** Borrowing, returning and refreshing. *)
Definition everyday (o : pop) : Prop := match o with OBorrow _ | OReclaim _ _ | ORefresh => True | _ => False end.
(** The connections opened, with their addresses, oldest first (C48). *)
Definition opens (tr : list kevent) : list (bytes * nat) := rev (flat_map (fun e => match e with KDial s (Ok h) => [(s, h)] | _ => [] end) tr).
Definition entry (c : wrapper) : bytes * nat := (pw_str c, pw_conn c).
(** The pool is not started again after having been stopped (C53). *)
Definition after (b : bool) (o : pop) : bool := match o with OStop => true | _ => b end.
Fixpoint no_restart (stopped : bool) (os : list pop) : Prop :=
  match os with
  | [] => True
  | o :: os' => (o = OStart -> stopped = false) /\ no_restart (after stopped o) os'
  end.
(** The other of the two kinds of connections. *)
Definition other (mode : Z) : Z := if mode =? WriteMode then ReadMode else WriteMode.
