(** Whom the connections of a routing pool are opened to, and as whom. *)
From Coq Require Import String ZArith List Bool.
From Verif Require Import Bytes GoVal GoErr Messages GoStr Routing Pool SpecPool Client SpecClient.
Import ListNotations.
Open Scope Z_scope.

(** An overview in the trace lists [a] as an address of a member of the cluster. *)
Definition told_of (tr : list kevent) (a : bytes) : Prop :=
  exists h v rows, In (KQuery h v (Ok rows)) tr /\ lists v rows [Leader; Follower; ReadReplica] a.
(** Whatever is dialled is [home], or the address of a member that an overview listed before, with the
    given user name and password and query. *)
Definition keeps_to (home auth tls : bytes) (tr : list kevent) : Prop :=
  forall tr1 s r tr0, tr = tr1 ++ KDial s r :: tr0 -> s = home \/ exists a, told_of tr0 a /\ dressed auth tls a s.

(** The connection string [s] leads to [hp], with user name [u] and password [pw]. *)
Definition leads_to (s u pw hp : bytes) : Prop :=
  exists cf, conn_from_string s = Ok cf /\ cf_user cf = u /\ cf_password cf = pw /\ cf_host_port cf = hp.
(** Every connection is opened as [u] with [pw], to [hp] or to a member that an overview listed before - to
    the very host and port it listed, if the address is made of these. *)
Definition always_as (u pw hp : bytes) (tr : list kevent) : Prop :=
  forall tr1 s r tr0, tr = tr1 ++ KDial s r :: tr0 ->
  leads_to s u pw hp
  \/ exists a, told_of tr0 a /\ forall h p ds, a = str "bolt://" ++ h ++ str ":" ++ ds -> Forall host_char h -> decimal p ds ->
     leads_to s u pw (h ++ str ":" ++ ds).
