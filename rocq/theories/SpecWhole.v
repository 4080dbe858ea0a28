(** What it means that a user of the client gets all the way to the database and back. *)
From Coq Require Import String ZArith List Bool.
From Verif Require Import Bytes GoVal GoErr SpecPack SpecValues SpecCodec SpecServer Messages Connection Link Wire SpecSession.
Import ListNotations.
Open Scope Z_scope.

(** A statement with its parameters, asked for outside any transaction, on the default database. *)
Definition ask (x : bytes * gomap) : call := CQuery (fst x) (snd x) [].

(** The statement is no transaction control in disguise, and its request can be sent in one piece. *)
Definition fits_in (p : proto) (x : bytes * gomap) : Prop :=
  ordinary p (fst x) = true /\ sendable (codec p) 65535 (get_run_message p (fst x) (snd x) [] ReadMode true) = true.

(** The calls are the statements [qs] in order, and the caller of number [i] is told what the database
    decided on number [i]. Decision 0 is the one on the login. *)
Definition answered (J : judge) (qs : list (bytes * gomap)) (l : list (call * res answer)) : Prop :=
  length l = length qs
  /\ forall i x, nth_error qs i = Some x -> exists r, nth_error l i = Some (ask x, r) /\ told (ask x) (j_outcome J (S i)) r.
(** The database was given the statements [qs] in order, each once, and nothing else. *)
Definition received (J : judge) (p : proto) (qs : list (bytes * gomap)) (done : list (stmt * outcome)) : Prop :=
  length done = length qs
  /\ forall i x, nth_error qs i = Some x ->
     exists st, nth_error done i = Some (st, j_outcome J (S i)) /\ is_stmt (codec p) (fst x) (snd x) st /\ st_db st = None.

(** The statements a database decided in favour of. *)
Definition granted (done : list (stmt * outcome)) : list stmt :=
  map fst (filter (fun x => match snd x with Produced _ _ _ => true | _ => false end) done).

(** What a server reads from a login with this user name and password. *)
Definition login_of (u pw : bytes) (r : request) : Prop :=
  exists md, r = QLogin md /\ look (str "scheme") md = Some (PStr (str "basic"))
    /\ look (str "principal") md = Some (PStr u) /\ look (str "credentials") md = Some (PStr pw).
