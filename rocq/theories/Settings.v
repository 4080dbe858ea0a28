(** The settings of a connection: its timeout (connection.go:81) and its chunk size (connection.go:82). Connection.v has the chunk
    size; here the timeout is added, which every Read and Write looks up anew (connection.go:31, 45). *)
From Coq Require Import ZArith List Bool.
From Verif Require Import Bytes GoVal GoErr Messages Connection.
Import ListNotations.
Open Scope Z_scope.

(** The calls of a connection's user: those of Connection.v (SetChunkSize, connection.go:330-332, is one of them) and SetTimeout
    (connection.go:335-337). *)
Inductive tcall := TCall (o : call) | TSetTimeout (timeout : Z).
(** A connection with its timeout and its network. *)
Definition tuned (St : Type) := (Z * (conn * St))%type.
(** One call; [Net timeout] is the network as Reads and Writes with that timeout see it (connection.go:26-54). Simplification: the
    timeout is not changed while a call is in progress. *)
Definition tuned_exec {St} (Net : Z -> net St) (n : nat) (o : tcall) (x : tuned St) : tuned St * res answer :=
  match o with
  | TCall o => let '(c, s, r) := exec (Net (fst x)) (do_call n o) (fst (snd x)) (snd (snd x)) in ((fst x, (c, s)), r)
  | TSetTimeout t => ((t, snd x), Ok ADone)
  end.
